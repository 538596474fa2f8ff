(** * split, join and repeat of Fn (lib/SPVM/Fn.spvm)

    The StringList in which split collects the parts is a Coq list: List is a
    sequence (C31; fewer than 2^29 parts). *)
From Verif Require Import Base StM CLib Array_model FnMem_model FnStr_model StrBuf_model.

(** The loop of split, Fn.spvm:761-777: [n] more iterations; the offset, the
    match count and the parts. *)
Fixpoint split_loop (n : nat) (separator s : list Z) (limit offset match_count : Z) (parts : list (list Z))
  : outcome (Z * list (list Z)) :=
  match n with
  | O => Ret (offset, parts)
  | S n =>
      if (limit >? 0) && (match_count >=? wrap32 (limit - 1)) then Ret (offset, parts)
      else
        let! match_offset := index (Some s) (Some separator) offset (-1) in
        if match_offset >=? 0 then
          let! part := substr (Some s) offset (wrap32 (match_offset - offset)) None in
          split_loop n separator s limit (wrap32 (match_offset + zlen separator)) (wrap32 (match_count + 1)) (parts ++ [part])
        else split_loop n separator s limit offset match_count parts
  end.

(** The removal of empty parts at the end, Fn.spvm:786-795. *)
Fixpoint drop_empty (rev_parts : list (list Z)) : list (list Z) :=
  match rev_parts with
  | [] :: r => drop_empty r
  | _ => rev_parts
  end.

(** split, Fn.spvm:740-800. *)
Definition split (separator string : option (list Z)) (limit : Z) : outcome (list (list Z)) :=
  match separator with
  | None => Die "The separator $separator must be defined."
  | Some sep =>
      match string with
      | None => Die "The string $string must be defined."
      | Some s =>
          check! zlen sep >? 0 else "The length of the separator $separator must be greater than 0." in
          let! (offset, parts) := split_loop (Z.to_nat (zlen s)) sep s limit 0 0 [] in
          let! last :=
            if offset =? zlen s then Ret [] else substr string offset (wrap32 (zlen s - offset)) None in
          let parts := parts ++ [last] in
          Ret (if limit =? 0 then rev (drop_empty (rev parts)) else parts)
      end
  end.

(** The loop of join, Fn.spvm:481-492: [n] more iterations from [i]. *)
Fixpoint join_loop (n : nat) (separator : list Z) (strings : list (option (list Z))) (i : Z) : M sbuf unit :=
  match n with
  | O => ret tt
  | S n =>
      do string <- lift (elem_get strings i);
      do_ sb_push (match string with Some s => Some s | None => Some [] end) 0 (-1);
      do_ (if negb (i =? wrap32 (zlen strings - 1)) then sb_push (Some separator) 0 (-1) else ret tt);
      join_loop n separator strings (i + 1)
  end.

(** join, Fn.spvm:470-497. *)
Definition join (separator : option (list Z)) (strings : option (list (option (list Z)))) : outcome (list Z) :=
  match separator with
  | None => Die "The separator $separator must be defined."
  | Some sep =>
      match strings with
      | None => Die "The strings $strings must be defined."
      | Some l =>
          let! b := sb_new None (-1) in
          snd ((do_ join_loop (Z.to_nat (zlen l)) sep l 0; sb_to_string) b)
      end
  end.

(** The loop of repeat, Fn.spvm:631-633. *)
Fixpoint repeat_loop (n : nat) (s : list Z) : M sbuf unit :=
  match n with
  | O => ret tt
  | S n => do_ sb_push (Some s) 0 (-1); repeat_loop n s
  end.

(** repeat, Fn.spvm:620-637. *)
Definition repeat_string (string : option (list Z)) (count : Z) : outcome (list Z) :=
  match string with
  | None => Die "The string $string must be defined."
  | Some s =>
      check! count >=? 0 else "The repeat count $count must be a non-negative integer." in
      let! b := sb_new None (-1) in
      snd ((do_ repeat_loop (Z.to_nat count) s; sb_to_string) b)
  end.
