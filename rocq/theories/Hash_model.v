(** * Model of lib/SPVM/Hash.spvm and lib/SPVM/Hash/Entry.spvm

    Simplifications.
    - A chain of Hash::Entry objects linked by next_entry is the list of its
      entries; the array [entries] is the list of its chains. The links of one
      chain are private to the Hash object, so no aliasing is lost.
    - The SipHash value of a key under the seed of the object is an arbitrary
      function [sip] of the key bytes (Hash.c is not modelled): every theorem
      holds for every hash function, in particular for colliding ones.
    - A key is [option key], [None] being undef. Keys are stored as copies (or
      are read-only), so later changes of the caller's string cannot reach
      them: bytes suffice.
    - Assigning to a field runs no user code here; destructors that call back
      into the same Hash are treated separately in [hash_set_reentrant].
    - A method that throws leaves the state it had built so far, so every
      method returns the new state and an outcome. *)

From Verif Require Import Base CLib Buckets Val.

Record hentry : Type := {
  he_key : key;
  he_value : val;
  he_weak : bool          (* the field "value" is weakened *)
}.

Record hash : Type := {
  h_keys_length : Z;
  h_entries : list (list hentry)
}.

(** String comparison [eq]: same length and same bytes
    (spvm_implement.h, SPVM_IMPLEMENT_STRING_EQ). *)
Definition str_eq (a b : key) : bool := (zlen a =? zlen b) && (memcmp a b (zlen a) =? 0).

Definition die_key : string := "The key $key must be defined.".
Definition die_index : string :=
  "The index must be greater than or equal to 0 and less than the length of the array.".

Section Hash.
  Variable sip : key -> Z.

  (** _index_by_key, Hash.spvm:635-642: (int)(hash mod_ulong (long)length). *)
  Definition index_by_key (k : key) (entries_length : Z) : Z :=
    wrap32 (u64 (sip k) mod entries_length).

  (** The loop of get_entry, Hash.spvm:158-169. *)
  Fixpoint walk_entry (k : key) (chain : list hentry) : option hentry :=
    match chain with
    | [] => None
    | e :: rest => if str_eq (he_key e) k then Some e else walk_entry k rest
    end.

  (** get_entry, Hash.spvm:150-170. *)
  Definition hash_get_entry (h : hash) (k : option key) : outcome (option hentry) :=
    match k with
    | None => Die die_key
    | Some k =>
        match znth (h_entries h) (index_by_key k (zlen (h_entries h))) with
        | None => Die die_index
        | Some chain => Ret (walk_entry k chain)
        end
    end.

  (** get, Hash.spvm:103-114. *)
  Definition hash_get (h : hash) (k : option key) : outcome val :=
    let! e := hash_get_entry h k in
    Ret (match e with Some e => he_value e | None => VUndef end).

  (** exists, Hash.spvm:172-192: the same walk as get_entry. *)
  Definition hash_exists (h : hash) (k : option key) : outcome Z :=
    let! e := hash_get_entry h k in
    Ret (match e with Some _ => 1 | None => 0 end).

  (** Change the first entry of a chain with key [k]: "weaken
      $entry->{value}" and "unweaken $entry->{value}" act on the entry object
      found by get_entry. *)
  Fixpoint chain_change (k : key) (f : hentry -> hentry) (chain : list hentry) : list hentry :=
    match chain with
    | [] => []
    | e :: rest => if str_eq (he_key e) k then f e :: rest else e :: chain_change k f rest
    end.

  Definition hash_change (h : hash) (k : option key) (f : hentry -> hentry) : hash * outcome unit :=
    match k with
    | None => (h, Die die_key)
    | Some k =>
        let index := index_by_key k (zlen (h_entries h)) in
        match znth (h_entries h) index with
        | None => (h, Die die_index)
        | Some chain =>
            ({| h_keys_length := h_keys_length h;
                h_entries := zupd (h_entries h) index (chain_change k f chain) |}, Ret tt)
        end
    end.

  (** weaken, Hash.spvm:116-125. Weakening a field that holds undef does
      nothing (spvm_api.c:4987-5051). *)
  Definition entry_weaken (e : hentry) : hentry :=
    {| he_key := he_key e; he_value := he_value e; he_weak := he_weak e || is_defined (he_value e) |}.
  Definition hash_weaken (h : hash) (k : option key) : hash * outcome unit :=
    hash_change h k entry_weaken.

  (** unweaken, Hash.spvm:127-136. *)
  Definition entry_unweaken (e : hentry) : hentry :=
    {| he_key := he_key e; he_value := he_value e; he_weak := false |}.
  Definition hash_unweaken (h : hash) (k : option key) : hash * outcome unit :=
    hash_change h k entry_unweaken.

  (** isweak, Hash.spvm:138-148. *)
  Definition hash_isweak (h : hash) (k : option key) : outcome Z :=
    let! e := hash_get_entry h k in
    Ret (match e with Some e => if he_weak e then 1 else 0 | None => 0 end).

  (** The chain part of _set_to_container, Hash.spvm:653-694: update in place
      or append a new entry; the boolean is the increment of keys_length.
      Assigning a field clears its weak mark (spvm_api.c:5136-5271). *)
  Fixpoint walk_set (k : key) (v : val) (chain : list hentry) : list hentry * bool :=
    match chain with
    | [] => ([{| he_key := k; he_value := v; he_weak := false |}], true)
    | e :: rest =>
        if str_eq (he_key e) k
        then ({| he_key := he_key e; he_value := v; he_weak := false |} :: rest, false)
        else let (rest', added) := walk_set k v rest in (e :: rest', added)
    end.

  (** _set_to_container, Hash.spvm:644-695, on (entries, keys_length). *)
  Definition set_to_container (entries : list (list hentry)) (keys_length : Z) (k : key) (v : val)
    : outcome (list (list hentry) * Z) :=
    let index := index_by_key k (zlen entries) in
    match znth entries index with
    | None => Die die_index
    | Some chain =>
        let (chain', added) := walk_set k v chain in
        Ret (zupd entries index chain', if added then wrap32 (keys_length + 1) else keys_length)
    end.

  (** The inner while loop of _rehash, Hash.spvm:706-709. *)
  Fixpoint rehash_chain (chain : list hentry) (entries : list (list hentry)) (n : Z)
    : outcome (list (list hentry) * Z) :=
    match chain with
    | [] => Ret (entries, n)
    | e :: rest =>
        let! (entries, n) := set_to_container entries n (he_key e) (he_value e) in
        rehash_chain rest entries n
    end.

  (** The for loop of _rehash, Hash.spvm:704-710. *)
  Fixpoint rehash_buckets (old : list (list hentry)) (entries : list (list hentry)) (n : Z)
    : outcome (list (list hentry) * Z) :=
    match old with
    | [] => Ret (entries, n)
    | c :: rest => let! (entries, n) := rehash_chain c entries n in rehash_buckets rest entries n
    end.

  (** _rehash, Hash.spvm:697-712. [new Hash::Entry[n]] throws for n < 0. *)
  Definition hash_rehash (h : hash) : outcome hash :=
    let new_entries_length := wrap32 (zlen (h_entries h) * 2) in
    if new_entries_length <? 0
    then Die "The length of the array must be greater than or equal to 0."
    else
      let! (entries, _) := rehash_buckets (h_entries h) (zrep new_entries_length []) 0 in
      Ret {| h_keys_length := h_keys_length h; h_entries := entries |}.

  (** set, Hash.spvm:88-101. The test (double)keys_length / length > 0.75 is
      exact for 32-bit operands: the quotient differs from 3/4 by at least
      2^-33 when it differs at all. *)
  Definition hash_set (h : hash) (k : option key) (v : val) : hash * outcome unit :=
    match k with
    | None => (h, Die die_key)
    | Some k =>
        let h1 := if 4 * h_keys_length h >? 3 * zlen (h_entries h) then hash_rehash h else Ret h in
        match h1 with
        | Ret h1 =>
            match set_to_container (h_entries h1) (h_keys_length h1) k v with
            | Ret (entries, n) => ({| h_keys_length := n; h_entries := entries |}, Ret tt)
            | Die e => (h1, Die e)
            | UB => (h1, UB)
            | Fuel => (h1, Fuel)
            end
        | Die e => (h, Die e)
        | UB => (h, UB)
        | Fuel => (h, Fuel)
        end
    end.

  (** The walk of delete, Hash.spvm:205-222: unlink the first match. *)
  Fixpoint walk_delete (k : key) (chain : list hentry) : option (val * list hentry) :=
    match chain with
    | [] => None
    | e :: rest =>
        if str_eq (he_key e) k then Some (he_value e, rest)
        else match walk_delete k rest with
             | Some (v, rest') => Some (v, e :: rest')
             | None => None
             end
    end.

  (** delete, Hash.spvm:194-223. *)
  Definition hash_delete (h : hash) (k : option key) : hash * outcome val :=
    match k with
    | None => (h, Die die_key)
    | Some k =>
        let index := index_by_key k (zlen (h_entries h)) in
        match znth (h_entries h) index with
        | None => (h, Die die_index)
        | Some chain =>
            match walk_delete k chain with
            | None => (h, Ret VUndef)
            | Some (v, chain') =>
                ({| h_keys_length := wrap32 (h_keys_length h - 1);
                    h_entries := zupd (h_entries h) index chain' |}, Ret v)
            end
        end
    end.

  (** Filling the result array of keys/values: the while loop of one chain,
      Hash.spvm:232-235 and 257-260. *)
  Fixpoint fill_chain {A} (f : hentry -> A) (chain : list hentry) (out : list A) (n : Z)
    : outcome (list A * Z) :=
    match chain with
    | [] => Ret (out, n)
    | e :: rest =>
        if (0 <=? n) && (n <? zlen out)
        then fill_chain f rest (zupd out n (f e)) (wrap32 (n + 1))
        else Die die_index
    end.

  (** The for loop, Hash.spvm:230-236 and 255-261. *)
  Fixpoint fill_buckets {A} (f : hentry -> A) (buckets : list (list hentry)) (out : list A) (n : Z)
    : outcome (list A * Z) :=
    match buckets with
    | [] => Ret (out, n)
    | c :: rest => let! (out, n) := fill_chain f c out n in fill_buckets f rest out n
    end.

  Definition new_array {A} (n : Z) (x : A) : outcome (list A) :=
    if n <? 0 then Die "The length of the array must be greater than or equal to 0."
    else Ret (zrep n x).

  (** keys, Hash.spvm:225-238: an array of strings ([None] = undef). *)
  Definition hash_keys (h : hash) : outcome (list (option key)) :=
    let! out := new_array (h_keys_length h) None in
    let! (out, _) := fill_buckets (fun e => Some (he_key e)) (h_entries h) out 0 in
    Ret out.

  (** values, Hash.spvm:250-263. *)
  Definition hash_values (h : hash) : outcome (list val) :=
    let! out := new_array (h_keys_length h) VUndef in
    let! (out, _) := fill_buckets he_value (h_entries h) out 0 in
    Ret out.

  (** has_keys, Hash.spvm:240-248. *)
  Definition hash_has_keys (h : hash) : Z := if h_keys_length h >? 0 then 1 else 0.

  (** The typed getters, Hash.spvm:309-410: what they return for the value
      [v] found by get. [KAny] is plain get. *)
  Inductive kind : Type := KAny | KByte | KShort | KInt | KLong | KFloat | KDouble | KString.

  Definition typed (kd : kind) (v : val) : outcome val :=
    match kd, v with
    | KAny, _ => Ret v
    | KByte, VByte n => Ret (VInt n)
    | KByte, _ => Die "The type of the value for the key must Byte type."
    | KShort, VByte n => Ret (VInt n)
    | KShort, VShort n => Ret (VInt n)
    | KShort, _ => Die "The type of the value for the key must Short type or Byte type."
    | KInt, VByte n => Ret (VInt n)
    | KInt, VShort n => Ret (VInt n)
    | KInt, VInt n => Ret (VInt n)
    | KInt, _ => Die "The type of the value for the key must Int type, Short type or Byte type."
    | KLong, VByte n => Ret (VLong n)
    | KLong, VShort n => Ret (VLong n)
    | KLong, VInt n => Ret (VLong n)
    | KLong, VLong n => Ret (VLong n)
    | KLong, _ =>
        Die "The type of the value for the key must Long type, Int type, Short type or Byte type."
    | KFloat, VFloat b => Ret (VFloat b)
    | KFloat, _ => Die "The type of the value for the key must Float type."
    | KDouble, VDouble b => Ret (VDouble b)
    | KDouble, _ => Die "The type of the value for the key must Double type."
    | KString, VUndef => Ret VUndef
    | KString, VString s => Ret (VString s)
    | KString, _ => Die "The type of the value for the key must be string type."
    end.

  (** get, get_byte, ..., get_string. *)
  Definition hash_get_typed (kd : kind) (h : hash) (k : option key) : outcome val :=
    let! v := hash_get h k in typed kd v.

  (** get_or_default*, Hash.spvm:412-514. *)
  Definition hash_get_or_default (kd : kind) (h : hash) (k : option key) (d : val) : outcome val :=
    let! b := hash_exists h k in
    if b =? 0 then Ret d else hash_get_typed kd h k.

  (** delete_or_default*, Hash.spvm:516-626: the value is read before the
      deletion, so a type error deletes nothing. *)
  Definition hash_delete_or_default (kd : kind) (h : hash) (k : option key) (d : val)
    : hash * outcome val :=
    match hash_exists h k with
    | Ret b =>
        if b =? 0 then (h, Ret d)
        else match hash_get_typed kd h k with
             | Ret v =>
                 match hash_delete h k with
                 | (h', Ret _) => (h', Ret v)
                 | (h', Die e) => (h', Die e)
                 | (h', UB) => (h', UB)
                 | (h', Fuel) => (h', Fuel)
                 end
             | o => (h, o)
             end
    | Die e => (h, Die e)
    | UB => (h, UB)
    | Fuel => (h, Fuel)
    end.

  (** The empty hash built by new, Hash.spvm:28-33. *)
  Definition hash_empty : hash := {| h_keys_length := 0; h_entries := [[]] |}.

  (** The loop of new, Hash.spvm:52-62, over the argument array. A key that is
      not a string fails the cast on line 54; undef fails the test on
      line 56. *)
  Fixpoint hash_new_loop (kvs : list val) (h : hash) : outcome hash :=
    match kvs with
    | k :: v :: rest =>
        match k with
        | VString s =>
            match hash_set h (Some s) v with
            | (h, Ret _) => hash_new_loop rest h
            | (_, Die e) => Die e
            | (_, UB) => UB
            | (_, Fuel) => Fuel
            end
        | _ => Die "The key in the key-value pairs $key_values must be string."
        end
    | _ => Ret h
    end.

  (** new, Hash.spvm:28-65. *)
  Definition hash_new (kvs : list val) : outcome hash :=
    if negb (zlen kvs mod 2 =? 0)
    then Die "The length of the elements in the key-value pairs $key_values must be an even number."
    else hash_new_loop kvs hash_empty.

  (** Histories. *)
  Inductive h_op : Type :=
  | HSet (k : option key) (v : val)
  | HGet (kd : kind) (k : option key)
  | HGetOrDefault (kd : kind) (k : option key) (d : val)
  | HDeleteOrDefault (kd : kind) (k : option key) (d : val)
  | HExists (k : option key)
  | HDelete (k : option key)
  | HKeys | HValues | HLength | HHasKeys
  | HWeaken (k : option key) | HUnweaken (k : option key).

  Inductive h_out : Type :=
  | RUnit | RInt (n : Z) | RVal (v : val) | RKeys (ks : list (option key)) | RVals (vs : list val).

  Definition omap {A B} (f : A -> B) (o : outcome A) : outcome B := let! a := o in Ret (f a).

  Definition h_step (h : hash) (op : h_op) : hash * outcome h_out :=
    match op with
    | HSet k v => let (h, o) := hash_set h k v in (h, omap (fun _ => RUnit) o)
    | HGet kd k => (h, omap RVal (hash_get_typed kd h k))
    | HGetOrDefault kd k d => (h, omap RVal (hash_get_or_default kd h k d))
    | HDeleteOrDefault kd k d =>
        let (h, o) := hash_delete_or_default kd h k d in (h, omap RVal o)
    | HExists k => (h, omap RInt (hash_exists h k))
    | HDelete k => let (h, o) := hash_delete h k in (h, omap RVal o)
    | HKeys => (h, omap RKeys (hash_keys h))
    | HValues => (h, omap RVals (hash_values h))
    | HLength => (h, Ret (RInt (h_keys_length h)))
    | HHasKeys => (h, Ret (RInt (hash_has_keys h)))
    | HWeaken k => let (h, o) := hash_weaken h k in (h, omap (fun _ => RUnit) o)
    | HUnweaken k => let (h, o) := hash_unweaken h k in (h, omap (fun _ => RUnit) o)
    end.

  (** Every exception is caught by the caller, who goes on. *)
  Fixpoint h_run (h : hash) (ops : list h_op) : list (outcome h_out) :=
    match ops with
    | [] => []
    | op :: ops' => let (h, o) := h_step h op in o :: h_run h ops'
    end.

  Fixpoint h_exec (h : hash) (ops : list h_op) : hash :=
    match ops with
    | [] => h
    | op :: ops' => h_exec (fst (h_step h op)) ops'
    end.
End Hash.

(** copy, Hash.spvm:75-82: the new object has another seed, hence another
    hash function. *)
Fixpoint copy_loop (sip sip' : key -> Z) (h : hash) (ks : list (option key)) (ret : hash)
  : outcome hash :=
  match ks with
  | [] => Ret ret
  | k :: ks' =>
      let! v := hash_get sip h k in
      match hash_set sip' ret k v with
      | (ret, Ret _) => copy_loop sip sip' h ks' ret
      | (_, Die e) => Die e
      | (_, UB) => UB
      | (_, Fuel) => Fuel
      end
  end.
Definition hash_copy (sip sip' : key -> Z) (h : hash) : outcome hash :=
  let! ks := hash_keys h in copy_loop sip sip' h ks hash_empty.

(** set when the assignment that replaces the old value (Hash.spvm:673)
    destroys that value and its destructor calls back into the same Hash:
    [nested] is what the destructor does. Line 97 has read keys_length before
    the assignment and line 100 writes it back afterwards. (For a key that is
    already present and without a rehash.) *)
Definition hash_set_reentrant (sip : key -> Z) (h : hash) (k : key) (v : val)
    (nested : hash -> hash) : outcome hash :=
  let keys_length := h_keys_length h in
  let! (entries, n) := set_to_container sip (h_entries h) keys_length k v in
  let h1 := nested {| h_keys_length := keys_length; h_entries := entries |} in
  Ret {| h_keys_length := n; h_entries := h_entries h1 |}.
