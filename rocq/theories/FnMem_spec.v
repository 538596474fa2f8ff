(** * Raw byte operations, said with single bytes *)
From Verif Require Import Base FnMem_model.

(** Objects as they exist at run time: the data has one element size per
    element, and strings have one-byte elements. *)
Definition blob_ok (b : blob) : Prop :=
  0 < b_elem_size b /\ 0 <= b_length b <= INT32_MAX /\
  zlen (b_data b) = b_elem_size b * b_length b /\
  (b_kind b = KString -> b_elem_size b = 1) /\
  (b_read_only b = true -> b_kind b = KString).
Definition heap_ok (h : heap) : Prop := Forall blob_ok h.

(** Byte [i] of the object at address [a]. *)
Definition byte_at (h : heap) (a i : Z) : option Z :=
  match znth h a with Some b => znth (b_data b) i | None => None end.

(** Everything about the object except its bytes. *)
Definition header (h : heap) (a : Z) : option (kind * bool * Z * Z * Z) :=
  match znth h a with
  | Some b => Some (b_kind b, b_read_only b, b_elem_size b, b_length b, zlen (b_data b))
  | None => None
  end.

(** The object is a string or an array of numbers with at most 2^31 - 1 bytes. *)
Definition raw_object (h : heap) (o : ref) (a : Z) (size : Z) : Prop :=
  o = Some a /\ exists b, znth h a = Some b /\ is_raw b = true /\ zlen (b_data b) = size.

Definition read_only_at (h : heap) (a : Z) : bool :=
  match znth h a with Some b => b_read_only b | None => false end.

(** The range [off, off + n) lies inside [size] bytes. *)
Definition inside (size off n : Z) : Prop := 0 <= off /\ off + n <= size.

(** A copy is to be carried out (and not to throw): both objects hold raw
    bytes, the destination can be written, and the ranges are inside.  Nothing
    is asked of the offsets when there is nothing to copy. *)
Definition copy_allowed (h : heap) (dest : ref) (doff : Z) (source : ref) (soff n : Z) (d s : Z) : Prop :=
  exists dsize ssize,
    raw_object h dest d dsize /\ raw_object h source s ssize /\
    read_only_at h d = false /\ 0 <= n /\
    (n = 0 \/ (inside dsize doff n /\ inside ssize soff n)).

(** [n] bytes from [soff] of [s] (as they were before) are now at [doff] of
    [d], and nothing else has changed. *)
Definition copied (h h' : heap) (d doff s soff n : Z) : Prop :=
  (forall a, header h' a = header h a) /\
  (forall a i, byte_at h' a i =
     if (a =? d) && (doff <=? i) && (i <? doff + n) then byte_at h s (soff + (i - doff)) else byte_at h a i).

(** The ranges of one object overlap. *)
Definition overlap (dest source : ref) (doff soff n : Z) : Prop :=
  dest = source /\ doff < soff + n /\ soff < doff + n.

(** Integers of the call do not overflow: the byte sizes are ints. *)
Definition int_sizes (h : heap) : Prop := Forall (fun b => zlen (b_data b) <= INT32_MAX) h.

(** The elements of an array object of element size [e] are reversed. *)
Definition reversed (h h' : heap) (a : Z) : Prop :=
  (forall x, 0 <= x < zlen h -> header h' x = header h x) /\
  (forall x i, 0 <= x < zlen h -> x <> a -> byte_at h' x i = byte_at h x i) /\
  (forall b, znth h a = Some b ->
     forall k j, 0 <= k < b_length b -> 0 <= j < b_elem_size b ->
       byte_at h' a (b_elem_size b * k + j) = byte_at h a (b_elem_size b * (b_length b - 1 - k) + j)).

(** The [size] bytes from [offset] of [a] are reversed, and nothing else has
    changed. *)
Definition range_reversed (h h' : heap) (a offset size : Z) : Prop :=
  (forall x, 0 <= x < zlen h -> header h' x = header h x) /\
  (forall x i, 0 <= x < zlen h ->
     byte_at h' x i =
       if (x =? a) && (offset <=? i) && (i <? offset + size)
       then byte_at h a (offset + (offset + size - 1 - i)) else byte_at h x i).

(** The number written in bytes, most significant first; least significant
    first; and as the processor reads it. *)
Definition big_endian (l : list Z) : Z := fold_left (fun v b => 256 * v + b) l 0.
Fixpoint little_endian (l : list Z) : Z :=
  match l with [] => 0 | b :: l => b + 256 * little_endian l end.
Definition system_endian (little : bool) (l : list Z) : Z := if little then little_endian l else big_endian l.
Definition range_at (h : heap) (a offset size : Z) : list Z :=
  match znth h a with Some b => zsub (b_data b) offset size | None => [] end.

(** References point into the heap. *)
Definition valid_ref (h : heap) (o : ref) : Prop := forall a, o = Some a -> 0 <= a < zlen h.

(** A comparison is to be carried out. *)
Definition compare_allowed (h : heap) (o1 : ref) (off1 : Z) (o2 : ref) (off2 n : Z) (a1 a2 : Z) : Prop :=
  exists size1 size2,
    raw_object h o1 a1 size1 /\ raw_object h o2 a2 size2 /\ 0 <= n /\
    inside size1 off1 n /\ inside size2 off2 n.

(** The first difference of two ranges decides. *)
Definition compares (h : heap) (a1 off1 a2 off2 n : Z) (r : Z) : Prop :=
  (r = 0 /\ forall i, 0 <= i < n -> byte_at h a1 (off1 + i) = byte_at h a2 (off2 + i)) \/
  exists k x y, 0 <= k < n /\
    byte_at h a1 (off1 + k) = Some x /\ byte_at h a2 (off2 + k) = Some y /\
    (forall i, 0 <= i < k -> byte_at h a1 (off1 + i) = byte_at h a2 (off2 + i)) /\
    ((r = -1 /\ x < y) \/ (r = 1 /\ y < x)).
