(** * Model of the dump operator

    Models /repo/lib/SPVM/Builder/src/spvm_api.c:3307-3665
    (SPVM_API_dump_no_mortal, SPVM_API_dump_recursive).

    Simplifications. The heap is a function from addresses to objects; the
    type of a field decides between a number and a pointer, so that the object
    carries its fields as values with their names. The string buffer is the
    list of its bytes (its C implementation is NSbuf_model.v). The C functions
    snprintf with %g and %p are arguments [fmt_g] and [fmt_p]. The C stack is
    not bounded. *)

From Verif Require Import Base Utf8_model Dec.

(** A number in a field or an element: byte, short, int, long are printed with
    %d or %lld, float and double with %g. *)
Inductive num : Type := NInt (z : Z) | NReal (bits : Z).

(** A pointer is 0 for undef; bit 0 is set in the slot of a weak reference. *)
Inductive fvalue : Type := FNum (n : num) | FRef (p : Z).

Inductive object : Type :=
| OString (s : list Z)
| ONums (basic_type : list Z) (elements : list num)
| OMulnums (basic_type : list Z) (fields : list (list Z)) (elements : list (list num))
| OObjects (basic_type : list Z) (dimension : nat) (elements : list Z)
| OClass (basic_type : list Z) (fields : list (list Z * fvalue)).

(** SPVM_API_get_object_no_weaken_address, spvm_api.c:4959-4964: clears bit 0. *)
Definition no_weaken_address (p : Z) : Z := p - p mod 2.

(** snprintf with %02X of one byte. *)
Definition hex_digit (d : Z) : Z := if d <? 10 then 48 + d else 55 + d.
Definition x02X (b : Z) : list Z := [92; 120; 123; hex_digit (b / 16); hex_digit (b mod 16); 125].

(** isprint in the C locale. *)
Definition isprint (b : Z) : bool := (32 <=? b) && (b <=? 126).

(** spvm_api.c:3369-3401: the loop over the characters. [mem] is the string
    with the terminating NUL. The C code passes the length of the whole string
    for each character. *)
Fixpoint dump_chars (fuel : nat) (mem : list Z) (chars_length offset : Z) (buf : list Z) : outcome (list Z) :=
  match fuel with
  | O => Fuel
  | S fuel =>
      if offset >=? chars_length then Ret buf
      else
        let! (utf8_char_len, _) := utf8_iterate mem offset chars_length in
        let! c := rd mem offset in
        if utf8_char_len >? 0 then
          if (utf8_char_len =? 1) && negb (isprint c)
          then dump_chars fuel mem chars_length (offset + utf8_char_len) (buf ++ x02X c)
          else dump_chars fuel mem chars_length (offset + utf8_char_len) (buf ++ zsub mem offset utf8_char_len)
        else dump_chars fuel mem chars_length (offset + 1) (buf ++ x02X c)
  end.

(** spvm_api.c:3414-3416 and similar: two spaces per level. *)
Fixpoint spaces (depth : nat) : list Z := match depth with O => [] | S d => 32 :: 32 :: spaces d end.

(** spvm_api.c:3554-3556: one pair of brackets per dimension. *)
Fixpoint brackets (dimension : nat) : list Z := match dimension with O => [] | S d => 91 :: 93 :: brackets d end.

(** spvm_api.c:3478-3483, 3539-3544, 3650-3655: what follows an item. *)
Definition separator {A} (rest : list A) : list Z := match rest with [] => [10] | _ => [44; 10] end.

(** The buffer and the keys of address_symtable. *)
Definition dstate : Type := (list Z * list (list Z))%type.
Definition add (st : dstate) (s : list Z) : dstate := (fst st ++ s, snd st).

(** A loop over the items of an object. *)
Fixpoint items {A} (f : A -> dstate -> outcome dstate) (l : list A) (st : dstate) : outcome dstate :=
  match l with
  | [] => Ret st
  | x :: r => let! st := f x st in items f r (add st (separator r))
  end.

Definition beq (a b : list Z) : bool := if list_eq_dec Z.eq_dec a b then true else false.

Section Dump.
  Variable heap : Z -> option object.
  Variable fmt_g fmt_p : Z -> list Z.

  Definition fmt_num (n : num) : list Z := match n with NInt z => print_dec z | NReal b => fmt_g b end.

  (** spvm_api.c:3547-3561: the end of an array. *)
  Definition array_end (depth : nat) (basic_type : list Z) (dimension : nat) (p : Z) : list Z :=
    spaces depth ++ [93] ++ [32; 58; 32] ++ basic_type ++ brackets dimension
      ++ [40] ++ fmt_p (no_weaken_address p) ++ [41].

  (** SPVM_API_dump_recursive, spvm_api.c:3350-3665. *)
  Fixpoint dump_recursive (fuel : nat) (depth : nat) (p : Z) (st : dstate) : outcome dstate :=
    match fuel with
    | O => Fuel
    | S fuel =>
        if p =? 0 then Ret (add st [117; 110; 100; 101; 102])
        else
          match heap (no_weaken_address p) with
          | None => UB
          | Some (OString s) =>
              let! buf := dump_chars (S (length s)) (s ++ [0]) (zlen s) 0 (fst st ++ [34]) in
              Ret (buf ++ [34], snd st)
          | Some (ONums ty l) =>
              let! st := items (fun n st => Ret (add (add st (spaces (depth + 1))) (fmt_num n))) l (add st [91; 10]) in
              Ret (add st (array_end depth ty 1 p))
          | Some (OMulnums ty names l) =>
              let! st :=
                items (fun ns st =>
                         let st := add (add st (spaces (depth + 1))) [123; 10] in
                         let! st :=
                           items (fun x st => Ret (add st (spaces (depth + 2) ++ fst x ++ [32; 61; 62; 32] ++ fmt_num (snd x))))
                                 (combine names ns) st in
                         Ret (add st [32; 32; 125]))
                      l (add st [91; 10]) in
              Ret (add st (array_end depth ty 1 p))
          | Some (OObjects ty dim l) =>
              let! st :=
                items (fun q st => dump_recursive fuel (depth + 1) (no_weaken_address q) (add st (spaces (depth + 1))))
                      l (add st [91; 10]) in
              Ret (add st (array_end depth ty dim p))
          | Some (OClass ty fields) =>
              let key := fmt_p (no_weaken_address p) in
              if existsb (beq key) (snd st)
              then Ret (add st ([82; 69; 85; 83; 69; 95; 79; 66; 74; 69; 67; 84; 40] ++ key ++ [41]))
              else
                let st := (fst st, key :: snd st) in
                let st := add st (ty ++ [32; 40] ++ fmt_p p ++ [41; 32] ++ [123; 10]) in
                let! st :=
                  items (fun x st =>
                           let st := add st (spaces (depth + 1) ++ fst x ++ [32; 61; 62; 32]) in
                           match snd x with
                           | FNum n => Ret (add st (fmt_num n))
                           | FRef q => dump_recursive fuel (depth + 1) (no_weaken_address q) st
                           end) fields st in
                Ret (add st (spaces depth ++ [125]))
          end
    end.

  (** SPVM_API_dump_no_mortal, spvm_api.c:3317-3339. *)
  Definition dump (fuel : nat) (p : Z) : outcome (list Z) :=
    let! st := dump_recursive fuel 0 p ([], []) in Ret (fst st).
End Dump.
