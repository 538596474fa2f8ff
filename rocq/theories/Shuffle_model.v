(** * Array->shuffle_any_numeric

    lib/SPVM/Array.spvm:1432-1458, on the heap of byte blocks of FnMem_model. The copy of
    an element of the array over another one is a C memcpy; [move] says how it treats
    equal ranges: [false] is the C standard, where overlapping ranges are undefined,
    [true] copies as memmove does. The elements are also those of shuffle, 1460-1475. *)
From Verif Require Import Base Array_model FnMem_model.
Local Open Scope Z_scope.

(** 1448-1457: [n] more iterations, from counter [i]; [t] is the temporary byte array. *)
Fixpoint shuffle_numeric_loop (move : bool) (n : nat) (h : heap) (t a : Z) (elem_size i seed : Z) : outcome (heap * Z) :=
  match n with
  | O => Ret (h, seed)
  | S n =>
      let (r, seed) := crand seed in
      let j := Z.rem r (wrap32 (i + 1)) in
      let! h := fn_memcpy h (Some t) 0 (Some a) (wrap32 (elem_size * i)) elem_size in
      let! h := fn_copy move h (Some a) (wrap32 (elem_size * i)) (Some a) (wrap32 (elem_size * j)) elem_size in
      let! h := fn_memcpy h (Some a) (wrap32 (elem_size * j)) (Some t) 0 elem_size in
      shuffle_numeric_loop move n h t a elem_size (i - 1) seed
  end.
(** 1432-1458; the temporary array is the last object of the new heap. *)
Definition shuffle_any_numeric (move : bool) (h : heap) (o : ref) (seed : Z) : outcome (heap * Z) :=
  match o with
  | None => Die "The array $array must be defined."
  | Some a =>
      match znth h a with
      | None => UB
      | Some b =>
          match b_kind b with
          | KNumArray | KMulArray =>
              let e := b_elem_size b in
              shuffle_numeric_loop move (Z.to_nat (b_length b - 1)) (h ++ [mk_blob KNumArray false 1 e (zrep e 0)]) (zlen h) a e
                (b_length b - 1) seed
          | _ => Die "The type of the array $array must be a numeric type or a multi-numeric type."
          end
      end
  end.
