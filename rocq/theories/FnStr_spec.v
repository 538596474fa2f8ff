(** * What the string functions of Fn are documented to do *)
From Verif Require Import Base.

(** A string object: bytes, with a length that is an int and leaves room for
    the terminating NUL. *)
Definition is_string (s : list Z) : Prop := Forall (fun b => 0 <= b <= 255) s /\ zlen s < INT32_MAX.
Definition string_arg (o : option (list Z)) : Prop := match o with Some s => is_string s | None => True end.

(** [sub] occurs in [s] at offset [i]. *)
Definition occurs (s sub : list Z) (i : Z) : Prop :=
  exists before after, s = before ++ sub ++ after /\ zlen before = i.

(** The last searched position: documented to be the given end, and the last
    position of the string for a negative end; the code also takes the length
    of the string for the last position. *)
Definition last_position (s : list Z) (end_ : Z) : Z :=
  if (end_ <? 0) || (end_ =? zlen s) then zlen s - 1 else end_.

(** The range is one the functions accept. *)
Definition range_ok (s : list Z) (begin end_ : Z) : Prop :=
  0 <= begin <= zlen s /\ end_ <= zlen s /\ (end_ < 0 \/ begin <= end_).

(** [sub] occurs at [i] and lies between [begin] and the last position. *)
Definition occurs_between (s sub : list Z) (begin last i : Z) : Prop :=
  begin <= i /\ i + zlen sub - 1 <= last /\ occurs s sub i.

Definition least_occurrence (s sub : list Z) (begin last r : Z) : Prop :=
  (occurs_between s sub begin last r /\ forall i, occurs_between s sub begin last i -> r <= i) \/
  (r = -1 /\ forall i, ~ occurs_between s sub begin last i).
Definition greatest_occurrence (s sub : list Z) (begin last r : Z) : Prop :=
  (occurs_between s sub begin last r /\ forall i, occurs_between s sub begin last i -> i <= r) \/
  (r = -1 /\ forall i, ~ occurs_between s sub begin last i).

(** A byte is an ASCII capital / small letter, a white-space character. *)
Definition capital (b : Z) : bool := (65 <=? b) && (b <=? 90).
Definition small (b : Z) : bool := (97 <=? b) && (b <=? 122).
Definition space (b : Z) : bool := existsb (Z.eqb b) [9; 10; 11; 12; 13; 32].
Definition lower (b : Z) : Z := if capital b then b + 32 else b.
Definition upper (b : Z) : Z := if small b then b - 32 else b.
Definition on_first (f : Z -> Z) (s : list Z) : list Z := match s with [] => [] | b :: s => f b :: s end.

(** [t] is [s] without the white space at both ends. *)
Definition trimmed (s t : list Z) : Prop :=
  exists l r, s = l ++ t ++ r /\ Forall (fun b => space b = true) l /\ Forall (fun b => space b = true) r /\
    (forall b, znth t 0 = Some b -> space b = false) /\
    (forall b, znth t (zlen t - 1) = Some b -> space b = false).

(** [t] is [s] without "\r\n", or else without "\n", at its end. *)
Definition chomped (s t : list Z) : Prop :=
  s = t ++ [13; 10] \/
  (s = t ++ [10] /\ forall u, s <> u ++ [13; 10]) \/
  (s = t /\ forall u, s <> u ++ [10]).

(** The code points of a list of inclusive ranges, and the documented classes
    (Fn.pm:393-533). *)
Definition in_ranges (l : list (Z * Z)) (c : Z) : Prop := exists lo hi, In (lo, hi) l /\ lo <= c <= hi.
Definition A_Z : Z * Z := (0x41, 0x5A).
Definition a_z : Z * Z := (0x61, 0x7A).
Definition digits : Z * Z := (0x30, 0x39).
Definition A_F : Z * Z := (0x41, 0x46).
Definition a_f : Z * Z := (0x61, 0x66).
Definition one (c : Z) : Z * Z := (c, c).

(** [is] gives 1 exactly on the class, and 0 elsewhere. *)
Definition recognizes (is : Z -> Z) (class : list (Z * Z)) : Prop :=
  forall c, (is c = 1 /\ in_ranges class c) \/ (is c = 0 /\ ~ in_ranges class c).

(** The range of [n] bytes at [off] (up to the end of the string for a negative
    [n]) lies inside [s]; its length. *)
Definition range_length (s : list Z) (off n : Z) : Z := if n <? 0 then zlen s - off else n.
Definition range_inside (s : list Z) (off n : Z) : Prop :=
  0 <= off /\ 0 <= range_length s off n /\ off + range_length s off n <= zlen s.
