(** * What the code point functions are documented to do *)
From Verif Require Import Base Utf8_spec.

Definition valid_utf8 (s : list Z) : Prop := exists cps, wf_utf8 s cps.

(** A range "a-z", or "a" for "a-a". *)
Definition range_text (p : list Z) (lo hi : Z) : Prop :=
  (wf_utf8 p [lo; 45; hi] /\ lo <= hi) \/ (wf_utf8 p [lo] /\ lo = hi).

(** The code point in place of [cp]. *)
Definition translated (lo hi to cp : Z) : Z := if (lo <=? cp) && (cp <=? hi) then to + (cp - lo) else cp.

(** The code points from [off] on, [n] of them (all of them for a negative [n]). *)
Definition cp_range (cps : list Z) (off n : Z) : list Z := if n <? 0 then zdrop off cps else zsub cps off n.
