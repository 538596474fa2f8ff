(** * Conversions between integers and strings

    Models lib/SPVM/Builder/include/spvm_implement.h:2053-2229. A string is a
    list of bytes or undef ([None]); its C view ends at the first NUL. *)

From Verif Require Import Base CLib Dec Bytes CStrto.

(** SPVM_NATIVE_C_STACK_TMP_BUFFER_SIZE (spvm_native.h). *)
Definition TMP_BUFFER : Z := 512.

(** [snprintf(buf, n, "%d", v); strlen(buf)]: at most n - 1 characters. *)
Definition snprintf_dec (n v : Z) : list Z := c_str (ztake (n - 1) (print_dec v)).

(** spvm_implement.h:2053-2091 BYTE/SHORT/INT/LONG_TO_STRING. *)
Definition int_to_string (v : Z) : list Z := snprintf_dec TMP_BUFFER v.

Inductive ikind := IByte | IShort | IInt | ILong.

(** Range of each type. *)
Definition imin (k : ikind) : Z :=
  match k with IByte => -128 | IShort => -32768 | IInt => -2147483648 | ILong => -9223372036854775808 end.
Definition imax (k : ikind) : Z :=
  match k with IByte => 127 | IShort => 32767 | IInt => 2147483647 | ILong => 9223372036854775807 end.

(** spvm_implement.h:2113-2180 STRING_TO_BYTE/SHORT/INT/LONG. The final cast
    is the identity on the clamped value. *)
Definition string_to_int (k : ikind) (s : option (list Z)) : Z :=
  match s with
  | None => 0
  | Some s =>
      let num := fst (fst (strtoll 10 (c_str s))) in
      match k with
      | IByte => wrap8 (if 127 <? num then 127 else if num <? -128 then -128 else num)
      | IShort => wrap16 (if 32767 <? num then 32767 else if num <? -32768 then -32768 else num)
      | IInt => wrap32 (if INT32_MAX <? num then INT32_MAX else if num <? INT32_MIN then INT32_MIN else num)
      | ILong => wrap64 num
      end
  end.

(** spvm_implement.h:2208-2222 STRING_TO_BYTE_ARRAY: the elements are int8_t. *)
Definition string_to_bytes (s : option (list Z)) : option (list Z) :=
  match s with None => None | Some s => Some (map wrap8 s) end.
(** spvm_implement.h:2224-2229 BYTE_ARRAY_TO_STRING: no test for undef. *)
Definition bytes_to_string (a : option (list Z)) : outcome (list Z) :=
  match a with None => UB | Some a => Ret (map u8 a) end.
