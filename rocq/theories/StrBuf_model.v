(** * Model of the StringBuffer class (lib/SPVM/StringBuffer.spvm)

    The mutable string of the buffer is its bytes.  Left out:
    get_string_unsafe (StringBuffer.spvm:154-156), which hands out the internal
    string; hence the string arguments are never the internal string. *)

From Verif Require Import Base StM CLib Array_model FnMem_model FnStr_model.

(** Fields, StringBuffer.spvm:18-22. *)
Record sbuf := mk_sbuf {
  sb_capacity : Z;
  sb_length : Z;
  sb_string : list Z
}.

Definition set_len (n : Z) : M sbuf unit := modify (fun s => mk_sbuf (sb_capacity s) n (sb_string s)).
Definition set_str (d : list Z) : M sbuf unit := modify (fun s => mk_sbuf (sb_capacity s) (sb_length s) d).

(** new_len, StringBuffer.spvm:43-63. *)
Definition sb_new_len (length capacity : Z) : outcome sbuf :=
  check! length >=? 0 else "The length $length must be greater than or equal to 0." in
  let capacity := if capacity <? 0 then 4 else capacity in
  let capacity := if length >? capacity then length else capacity in
  let! string := new_string_len capacity in
  Ret (mk_sbuf capacity length string).

(** new, StringBuffer.spvm:25-41. *)
Definition sb_new (string : option (list Z)) (capacity : Z) : outcome sbuf :=
  let length := match string with Some s => zlen s | None => 0 end in
  let! self := sb_new_len length capacity in
  match string with
  | Some s =>
      let! d := bytes_copy (sb_string self) 0 s 0 length in
      Ret (mk_sbuf (sb_capacity self) (sb_length self) d)
  | None => Ret self
  end.

(** _maybe_extend, StringBuffer.spvm:158-179. *)
Definition sb_maybe_extend (min_capacity : Z) : M sbuf unit :=
  do capacity <- gets sb_capacity;
  if negb (min_capacity >? capacity) then ret tt
  else
    let capacity := if capacity <? min_capacity then min_capacity else capacity in
    let new_capacity := wrap32 (capacity * 2) in
    do new_buffer <- lift (new_string_len new_capacity);
    do length <- gets sb_length;
    do buffer <- gets sb_string;
    do new_buffer <- lift (bytes_copy new_buffer 0 buffer 0 length);
    modify (fun s => mk_sbuf new_capacity (sb_length s) new_buffer).

(** push, StringBuffer.spvm:66-92. *)
Definition sb_push (string : option (list Z)) (offset length : Z) : M sbuf unit :=
  match string with
  | None => die "The string $string must be defined."
  | Some str =>
      let string_length := zlen str in
      unless offset >=? 0 die_ "The offset $offset must be greater than or equal to 0.";
      let length := if length =? -1 then wrap32 (string_length - offset) else length in
      unless wrap32 (offset + length) <=? string_length die_ "The offset $offset + the length $length must be less than or equal to the length of the string.";
      do buffer_length <- gets sb_length;
      let new_length := wrap32 (buffer_length + length) in
      do_ sb_maybe_extend new_length;
      do buffer <- gets sb_string;
      do d <- lift (bytes_copy buffer buffer_length str offset length);
      do_ set_str d;
      modify (fun s => mk_sbuf (sb_capacity s) (wrap32 (sb_length s + length)) (sb_string s))
  end.

(** push_char, StringBuffer.spvm:94-101.  The length is incremented before the
    checked store. *)
Definition sb_push_char (char : Z) : M sbuf unit :=
  do length <- gets sb_length;
  let new_length := wrap32 (length + 1) in
  do_ sb_maybe_extend new_length;
  do at_ <- gets sb_length;
  do_ set_len (wrap32 (at_ + 1));
  do buffer <- gets sb_string;
  do d <- lift (elem_set buffer at_ (to_byte char));
  set_str d.

(** replace, StringBuffer.spvm:103-131. *)
Definition sb_replace (offset remove_length : Z) (replace : option (list Z)) : M sbuf unit :=
  unless offset >=? 0 die_ "The offset $offset must be greater than or equal to 0.";
  unless remove_length >=? 0 die_ "The removal length $remove_length must be greater than or equal to 0.";
  do length <- gets sb_length;
  unless wrap32 (offset + remove_length) <=? length die_ "$offset + $removing length must be less than or equal to the length of $string buffer.";
  let replace_length := match replace with Some r => zlen r | None => 0 end in
  let new_length := wrap32 (wrap32 (length - remove_length) + replace_length) in
  do_ sb_maybe_extend new_length;
  do length <- gets sb_length;
  let move_length := wrap32 (wrap32 (length - offset) - remove_length) in
  do buffer <- gets sb_string;
  do d <- lift (bytes_copy buffer (wrap32 (offset + replace_length)) buffer (wrap32 (offset + remove_length)) move_length);
  do_ set_str d;
  do_ match replace with
      | Some r =>
          do buffer <- gets sb_string;
          do d <- lift (bytes_copy buffer offset r 0 replace_length);
          set_str d
      | None => ret tt
      end;
  set_len new_length.

(** reserve, StringBuffer.spvm:133-147. *)
Definition sb_reserve (new_capacity : Z) : M sbuf unit :=
  unless new_capacity >=? 0 die_ "The new capacity $new_capacity must be greater than or equal to 0.";
  do capacity <- gets sb_capacity;
  if new_capacity >? capacity then
    do length <- gets sb_length;
    do new_buffer <- lift (new_string_len new_capacity);
    do buffer <- gets sb_string;
    do new_buffer <- lift (bytes_copy new_buffer 0 buffer 0 length);
    modify (fun s => mk_sbuf new_capacity (sb_length s) new_buffer)
  else ret tt.

(** to_string, StringBuffer.spvm:149-152. *)
Definition sb_to_string : M sbuf (list Z) :=
  fun s => (s, substr (Some (sb_string s)) 0 (sb_length s) None).

(** set_length, StringBuffer.spvm:181-195. *)
Definition sb_set_length (length : Z) : M sbuf unit :=
  unless length >=? 0 die_ "The length $length must be greater than or equal to 0.";
  do_ sb_maybe_extend length;
  do_ set_len length;
  do capacity <- gets sb_capacity;
  if length <? capacity then
    fun s =>
      match memset_char (sb_string s) 0 length (wrap32 (capacity - length)) with
      | (d, o) => (mk_sbuf (sb_capacity s) (sb_length s) d, o)
      end
  else ret tt.

(** set, StringBuffer.spvm:197-202. *)
Definition sb_set (string : option (list Z)) : M sbuf unit :=
  do_ sb_set_length 0;
  sb_push string 0 (-1).

(** clone, StringBuffer.spvm:204-211. *)
Definition sb_clone (s : sbuf) : outcome sbuf :=
  let! string := substr (Some (sb_string s)) 0 (sb_length s) None in
  sb_new (Some string) (-1).

(** A string object as memcmp sees it. *)
Definition string_blob (d : list Z) : blob := mk_blob KString false 1 (zlen d) d.

(** cmp, StringBuffer.spvm:213-266. *)
Definition sb_cmp (a b : option sbuf) : outcome Z :=
  match a, b with
  | None, None => Ret 0
  | Some _, None => Ret 1
  | None, Some _ => Ret (-1)
  | Some a, Some b =>
      let a_length := sb_length a in
      let b_length := sb_length b in
      let short_length := if a_length <? b_length then a_length else b_length in
      let! memcmp_ret := fn_memcmp [string_blob (sb_string a); string_blob (sb_string b)] (Some 0) 0 (Some 1) 0 short_length in
      Ret (if negb (memcmp_ret =? 0) then (if memcmp_ret <? 0 then -1 else 1)
           else if a_length =? b_length then 0
           else if a_length <? b_length then -1 else 1)
  end.

(** eq, StringBuffer.spvm:268-286. *)
Definition sb_eq (a b : option sbuf) : outcome Z :=
  match a, b with
  | Some _, Some _ => let! c := sb_cmp a b in Ret (if c =? 0 then 1 else 0)
  | Some _, None => Ret 0
  | None, Some _ => Ret 0
  | None, None => Ret 1
  end.

(** The operations, as calls on one buffer. *)
Inductive bop :=
| BPush (s : option (list Z)) (offset length : Z)
| BPushChar (c : Z)
| BReplace (offset remove : Z) (r : option (list Z))
| BReserve (n : Z)
| BSetLength (n : Z)
| BSet (s : option (list Z))
| BToString
| BLength
| BCapacity.
Inductive bres := BRUnit | BRString (s : list Z) | BRInt (n : Z).

Definition sb_op (op : bop) : M sbuf bres :=
  match op with
  | BPush s off n => do_ sb_push s off n; ret BRUnit
  | BPushChar c => do_ sb_push_char c; ret BRUnit
  | BReplace off rem r => do_ sb_replace off rem r; ret BRUnit
  | BReserve n => do_ sb_reserve n; ret BRUnit
  | BSetLength n => do_ sb_set_length n; ret BRUnit
  | BSet s => do_ sb_set s; ret BRUnit
  | BToString => do s <- sb_to_string; ret (BRString s)
  | BLength => do n <- gets sb_length; ret (BRInt n)
  | BCapacity => do n <- gets sb_capacity; ret (BRInt n)
  end.

(** A sequence of calls; an exception ends only its call. *)
Fixpoint sb_run (s : sbuf) (ops : list bop) : list (outcome bres) :=
  match ops with
  | [] => []
  | op :: ops => let (s, o) := sb_op op s in o :: sb_run s ops
  end.
