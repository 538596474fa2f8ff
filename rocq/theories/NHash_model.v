(** * Model of Builder/src/spvm_hash.c, the symbol table of the compiler and
    the runtime.

    Simplifications.
    - A bucket (chain of SPVM_HASH_ENTRY linked by next_entry) is the Coq list
      of its entries in chain order; a table is the list of its buckets.
      Allocation always succeeds; the entries own a private copy of the key
      (new_hash_entry, lines 245-247), so a key is just its bytes.
    - A stored pointer is an integer, 0 being NULL.
    - Signed arithmetic wraps around (the C standard leaves the overflow in
      calc_hash_value undefined; every supported compiler multiplies and
      adds in two's complement there).
    - The failed asserts and out-of-range table accesses are [UB]. *)

From Verif Require Import Base CLib Buckets.

Notation nentry := (key * Z)%type.

Record nhash : Type := {
  nh_capacity : Z;              (* hash->table_capacity *)
  nh_keys_length : Z;           (* hash->keys_length *)
  nh_table : list (list nentry) (* hash->table *)
}.

(** SPVM_HASH_calc_hash_value, spvm_hash.c:313-328. *)
Definition calc_hash_loop (str : key) : Z :=
  fold_left (fun hash ch => wrap32 (wrap32 (wrap32 (hash * 32) + hash) + u8 ch)) str 5381.

Definition calc_hash_value (str : key) : Z :=
  let hash := calc_hash_loop str in
  if hash <? 0 then Z.lnot hash else hash.

(** The comparison of a looked-up key with an entry, spvm_hash.c:76-83 and
    121-128. *)
Definition nh_match (k : key) (e : nentry) : bool :=
  if (zlen k =? 0) && (zlen (fst e) =? 0) then true
  else (zlen (fst e) =? zlen k) && (memcmp k (fst e) (zlen k) =? 0).

(** The walk of SPVM_HASH_get, spvm_hash.c:74-95. *)
Fixpoint nh_walk_get (k : key) (chain : list nentry) : Z :=
  match chain with
  | [] => 0
  | e :: rest => if nh_match k e then snd e else nh_walk_get k rest
  end.

(** SPVM_HASH_get, spvm_hash.c:64-96. *)
Definition nh_get (h : nhash) (k : key) : outcome Z :=
  if nh_capacity h =? 0 then UB else
  let table_index := Z.rem (calc_hash_value k) (nh_capacity h) in
  match znth (nh_table h) table_index with
  | None => UB
  | Some chain => Ret (nh_walk_get k chain)
  end.

(** SPVM_HASH_set_entry, spvm_hash.c:152-177: append the entry to the end of
    its chain in the given table. *)
Definition nh_set_entry (table : list (list nentry)) (capacity : Z) (e : nentry)
  : outcome (list (list nentry)) :=
  if capacity =? 0 then UB else
  let table_index := Z.rem (calc_hash_value (fst e)) capacity in
  match znth table table_index with
  | None => UB
  | Some chain => Ret (zupd table table_index (chain ++ [e]))
  end.

(** The inner loop of SPVM_HASH_rehash, spvm_hash.c:279-293. *)
Fixpoint nh_rehash_chain (chain : list nentry) (capacity : Z) (table : list (list nentry))
  : outcome (list (list nentry)) :=
  match chain with
  | [] => Ret table
  | e :: rest => let! table := nh_set_entry table capacity e in nh_rehash_chain rest capacity table
  end.

(** The outer loop, spvm_hash.c:275-295. *)
Fixpoint nh_rehash_buckets (old : list (list nentry)) (capacity : Z) (table : list (list nentry))
  : outcome (list (list nentry)) :=
  match old with
  | [] => Ret table
  | c :: rest => let! table := nh_rehash_chain c capacity table in nh_rehash_buckets rest capacity table
  end.

(** SPVM_HASH_rehash, spvm_hash.c:256-311. *)
Definition nh_rehash (h : nhash) (new_capacity : Z) : outcome nhash :=
  if new_capacity <=? 0 then UB else
  let! new_table := nh_rehash_buckets (nh_table h) new_capacity (zrep new_capacity []) in
  Ret {| nh_capacity := new_capacity; nh_keys_length := nh_keys_length h; nh_table := new_table |}.

(** The walk of SPVM_HASH_set, spvm_hash.c:119-149. The boolean says that
    new_hash_entry (223-254) was called, which increments keys_length. *)
Fixpoint nh_walk_set (k : key) (v : Z) (chain : list nentry) : list nentry * bool :=
  match chain with
  | [] => ([(k, v)], true)
  | e :: rest =>
      if nh_match k e then ((fst e, v) :: rest, false)
      else let (rest', added) := nh_walk_set k v rest in (e :: rest', added)
  end.

(** SPVM_HASH_set, spvm_hash.c:98-150. The test [keys_length > capacity *
    0.75] is made in double and is exact for 32-bit operands. *)
Definition nh_set (h : nhash) (k : key) (v : Z) : outcome nhash :=
  let! h :=
    if 4 * nh_keys_length h >? 3 * nh_capacity h
    then nh_rehash h (wrap32 (wrap32 (nh_capacity h * 2) + 1))
    else Ret h in
  if nh_capacity h =? 0 then UB else
  let table_index := Z.rem (calc_hash_value k) (nh_capacity h) in
  match znth (nh_table h) table_index with
  | None => UB
  | Some chain =>
      let (chain', added) := nh_walk_set k v chain in
      Ret {| nh_capacity := nh_capacity h;
             nh_keys_length := if added then wrap32 (nh_keys_length h + 1) else nh_keys_length h;
             nh_table := zupd (nh_table h) table_index chain' |}
  end.

(** SPVM_HASH_new, spvm_hash.c:11-53. *)
Definition nh_new (capacity : Z) : outcome nhash :=
  if capacity <? 0 then UB else
  let capacity := if capacity =? 0 then 1 else capacity in
  Ret {| nh_capacity := capacity; nh_keys_length := 0; nh_table := zrep capacity [] |}.

(** Histories of calls made by a client on one table. *)
Inductive nh_op : Type :=
| NSet (k : key) (v : Z)
| NGet (k : key).

Fixpoint nh_run (h : nhash) (ops : list nh_op) : outcome (list Z) :=
  match ops with
  | [] => Ret []
  | NSet k v :: ops' => let! h := nh_set h k v in nh_run h ops'
  | NGet k :: ops' =>
      let! r := nh_get h k in
      let! rs := nh_run h ops' in
      Ret (r :: rs)
  end.

Definition nh_history (capacity : Z) (ops : list nh_op) : outcome (list Z) :=
  let! h := nh_new capacity in nh_run h ops.
