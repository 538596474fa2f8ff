(** * String objects: length, terminator, read-only flag

    Models the string operations of lib/SPVM/Builder/src/spvm_api.c (3859-3878
    new_string, 3273-3292 concat, 3667-3690 make_read_only and is_read_only,
    4432-4475 copy, 4477-4508 shorten) and of
    lib/SPVM/Builder/include/spvm_implement.h (397-409, 419-440, 749-783,
    785-799, 918-934, 1103-1110), on a heap of string objects. Memory release
    is not part of this model (see Mem_model); memory allocation succeeds. *)

From Verif Require Import Base CLib.

(** The object: data block (length + 1 bytes of calloc at creation), the
    length in the header, the read-only flag. *)
Record sobj := mk_sobj { s_block : list Z; s_length : Z; s_ro : bool }.

Record state := mk_state { st_vars : list (option nat); st_heap : list sobj }.

Definition READ_ONLY_TO_MUTABLE : string := "A read-only string cannnot be cast to mutable string type.".
Definition CONCAT_LEFT : string := "The left operand of . operator must be defined.".
Definition CONCAT_RIGHT : string := "The right operand of . operator must be defined.".
Definition NEW_STRING_LEN_LENGTH : string :=
  "The new_string_len operator failed. The length of the string must be a non-negative integer.".
Definition ARRAY_UNDEFINED : string := "An array access failed. The array must be defined.".
Definition INDEX_OUT_OF_RANGE : string := "An array access failed. The index is out of range.".

(** Statements. Variables are numbers; whether a variable has type string or
    mutable string is not known at run time. *)
Inductive op :=
| Lit (d : nat) (bs : list Z)          (* d = "..."; *)
| NewLen (d : nat) (n : Z)             (* d = new_string_len n; *)
| Assign (d s : nat)                   (* d = s; *)
| Cast (d s : nat)                     (* d = (mutable string)s; *)
| Copy (d s : nat)                     (* d = copy s; *)
| Concat (d a b : nat)                 (* d = a . b; *)
| Shorten (v : nat) (n : Z)            (* env->shorten(v, n) *)
| MakeReadOnly (v : nat)               (* make_read_only v; *)
| IsReadOnly (v : nat)                 (* is_read_only v *)
| Length (v : nat)                     (* length v *)
| Get (v : nat) (i : Z)                (* v->[i] *)
| Set_ (v : nat) (i b : Z)             (* v->[i] = b; *)
| CStr (v : nat).                      (* native code reading v up to the first NUL *)

Inductive out := Done | Num (z : Z) | Bytes (bs : list Z).

Definition var (s : state) (v : nat) : option nat := nth v (st_vars s) None.
Definition obj (s : state) (v : nat) : option sobj :=
  match var s v with Some i => nth_error (st_heap s) i | None => None end.

Fixpoint upd {A} (l : list A) (i : nat) (x : A) : list A :=
  match l, i with
  | [], _ => []
  | _ :: r, O => x :: r
  | y :: r, S j => y :: upd r j x
  end.

Definition set_var (s : state) (d : nat) (r : option nat) : state := mk_state (upd (st_vars s) d r) (st_heap s).
Definition new_in (s : state) (d : nat) (o : sobj) : state :=
  mk_state (upd (st_vars s) d (Some (length (st_heap s)))) (st_heap s ++ [o]).
Definition put (s : state) (v : nat) (o : sobj) : state :=
  match var s v with Some i => mk_state (st_vars s) (upd (st_heap s) i o) | None => s end.

(** spvm_api.c:3859-3878 new_string_no_mortal: [length + 1] is an int32_t sum;
    [bytes = None] for NULL. *)
Definition new_string (bytes : option (list Z)) (length : Z) (ro : bool) : outcome sobj :=
  if INT32_MAX <=? length then UB
  else
    let block := zrep (length + 1) 0 in
    let block := match bytes with Some b => zblit block 0 (ztake length b) | None => block end in
    Ret (mk_sobj block length ro).

(** memcpy(dst + off, src, n) between blocks. *)
Definition memcpy (dst : list Z) (off : Z) (src : list Z) (n : Z) : outcome (list Z) :=
  if (0 <=? n) && (n <=? zlen src) && (off + n <=? zlen dst) then Ret (zblit dst off (ztake n src)) else UB.

Definition step (s : state) (x : op) : state * outcome out :=
  let ret (r : outcome state) : state * outcome out :=
    match r with Ret s' => (s', Ret Done) | Die e => (s, Die e) | UB => (s, UB) | Fuel => (s, Fuel) end in
  match x with
  | Lit d bs =>
      (* spvm_implement.h:749-760: new_string, then make_read_only *)
      ret (let! o := new_string (Some bs) (zlen bs) true in Ret (new_in s d o))
  | NewLen d n =>
      (* spvm_implement.h:762-779 *)
      ret (if 0 <=? n then let! o := new_string None n false in Ret (new_in s d o)
           else Die NEW_STRING_LEN_LENGTH)
  | Assign d v => ret (Ret (set_var s d (var s v)))
  | Cast d v =>
      (* spvm_implement.h:397-409 MOVE_OBJECT_CHECK_READ_ONLY_STRING *)
      ret (match obj s v with
           | Some o => if s_ro o then Die READ_ONLY_TO_MUTABLE else Ret (set_var s d (var s v))
           | None => Ret (set_var s d (var s v))
           end)
  | Copy d v =>
      (* spvm_api.c:4432-4450; COPY of spvm_implement.h:1428 *)
      ret (match obj s v with
           | None => Ret (set_var s d None)
           | Some o =>
               let! o' := new_string None (s_length o) false in
               let! b := memcpy (s_block o') 0 (s_block o) (s_length o) in
               Ret (new_in s d (mk_sobj b (s_length o') (s_ro o')))
           end)
  | Concat d v w =>
      (* spvm_implement.h:419-440; spvm_api.c:3273-3292 *)
      ret (match obj s v, obj s w with
           | None, _ => Die CONCAT_LEFT
           | _, None => Die CONCAT_RIGHT
           | Some a, Some b =>
               let! o := new_string None (s_length a + s_length b) false in
               let! b1 := memcpy (s_block o) 0 (s_block a) (s_length a) in
               let! b2 := memcpy b1 (s_length a) (s_block b) (s_length b) in
               Ret (new_in s d (mk_sobj b2 (s_length o) (s_ro o)))
           end)
  | Shorten v n =>
      (* spvm_api.c:4477-4508 *)
      ret (match obj s v with
           | None => Ret s
           | Some o =>
               if s_ro o then Ret s
               else if negb (0 <=? n) then Ret s
               else if negb (n <? s_length o) then Ret s
               else if s_length o <=? zlen (s_block o)
                 then Ret (put s v (mk_sobj (zblit (s_block o) n (zrep (s_length o - n) 0)) n (s_ro o)))
                 else UB
           end)
  | MakeReadOnly v =>
      (* spvm_api.c:3667-3672: reads the type of the object before testing it *)
      ret (match obj s v with
           | None => UB
           | Some o => Ret (put s v (mk_sobj (s_block o) (s_length o) true))
           end)
  | IsReadOnly v =>
      (s, Ret (Num (match obj s v with Some o => if s_ro o then 1 else 0 | None => 0 end)))
  | Length v => (s, Ret (Num (match obj s v with Some o => s_length o | None => 0 end)))
  | Get v i =>
      (* spvm_implement.h:785-799 *)
      (s, match obj s v with
          | None => Die ARRAY_UNDEFINED
          | Some o =>
              if (i <? 0) || (s_length o <=? i) then Die INDEX_OUT_OF_RANGE
              else match znth (s_block o) i with Some b => Ret (Num (wrap8 b)) | None => UB end
          end)
  | Set_ v i b =>
      (* spvm_implement.h:918-934: no test of the read-only flag *)
      ret (match obj s v with
           | None => Die ARRAY_UNDEFINED
           | Some o =>
               if (i <? 0) || (s_length o <=? i) then Die INDEX_OUT_OF_RANGE
               else if i <? zlen (s_block o)
                 then Ret (put s v (mk_sobj (zupd (s_block o) i (u8 b)) (s_length o) (s_ro o)))
                 else UB
           end)
  | CStr v =>
      (s, match obj s v with
          | None => Die ARRAY_UNDEFINED
          | Some o => let! r := c_str_at (s_block o) 0 in Ret (Bytes r)
          end)
  end.

Fixpoint run (s : state) (xs : list op) : list (outcome out) :=
  match xs with
  | [] => []
  | x :: r => let (s', y) := step s x in y :: run s' r
  end.

(** [n] variables, all undef; no string. *)
Definition init (n : nat) : state := mk_state (repeat None n) [].
