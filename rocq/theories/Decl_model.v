(** * Enumerations and versions

    Builder/src/spvm_op.c: SPVM_OP_build_enumeration_item (1147-1203) and
    SPVM_OP_build_enumeration (1092-1145), the version declarations of
    SPVM_OP_build_class (421-497); spvm_check.c: the calls of enumeration methods
    (3151-3162).

    Simplifications.
    - An enumeration item is its name and the constant, if there is one. Of a constant
      that is not an int, only the low 32 bits of its value are read.
    - The method that an item becomes is its name and the constant it returns.
    - The rules of class declarations are given as the list of the version statements.
      isdigit is false for bytes above 127, and strtod is that of the C locale.
    - After an error in a version statement the remaining declarations are skipped, and
      the compilation fails; only the first error is kept. *)
From Verif Require Import Base.
Local Open Scope Z_scope.

Definition str := list Z.

(** ** Enumerations *)
Inductive constant := Int (v : Z) | Other (low : Z).
Definition item := (str * option constant)%type.
Record enum_method := Enum { e_name : str; e_value : Z }.

(** current_enum_value++ on an int32_t. *)
Definition increment (n : Z) : outcome Z := if n =? INT32_MAX then UB else Ret (n + 1).

(** spvm_op.c:1147-1203; the counter, the method, and whether there is an error. *)
Definition build_item (current : Z) (i : item) : outcome (Z * enum_method * bool) :=
  match snd i with
  | Some (Int v) => let! c := increment v in Ret (c, Enum (fst i) v, false)
  | Some (Other low) => let! c := increment current in Ret (c, Enum (fst i) low, true)
  | None => let! c := increment current in Ret (c, Enum (fst i) current, false)
  end.
Fixpoint build_items (current : Z) (l : list item) : outcome (Z * list enum_method * bool) :=
  match l with
  | [] => Ret (current, [], false)
  | i :: l =>
      let! (c, m, e) := build_item current i in
      let! (c, ms, e') := build_items c l in Ret (c, m :: ms, e || e')
  end.
(** The enumerations of a compilation: the counter is 0 at the start and set to 0 at the
    end of each one (1141-1142). *)
Fixpoint build_enumerations (current : Z) (l : list (list item)) : outcome (list (list enum_method) * bool) :=
  match l with
  | [] => Ret ([], false)
  | e :: l =>
      let! (_, ms, err) := build_items current e in
      let! (mss, errs) := build_enumerations 0 l in Ret (ms :: mss, err || errs)
  end.

(** spvm_check.c:3151-3162: a call of an enumeration method is replaced by its value;
    [None]: the method is not found. *)
Fixpoint call_enum (ms : list enum_method) (x : str) : option Z :=
  match ms with
  | [] => None
  | m :: ms => if list_eq_dec Z.eq_dec (e_name m) x then Some (e_value m) else call_enum ms x
  end.

(** ** Versions *)
Inductive version_error := Already | Not_string | Character | Begin | End | Dots | Digits | Strtod.

Definition isdigit (c : Z) : bool := (48 <=? c) && (c <=? 57).
(** 443-458: the dots and the digits after the first dot; [None]: an invalid character. *)
Fixpoint scan (l : str) (dots digits : Z) : option (Z * Z) :=
  match l with
  | [] => Some (dots, digits)
  | c :: l =>
      if negb ((c =? 46) || isdigit c) then None
      else
        let dots := if c =? 46 then dots + 1 else dots in
        let digits := if (0 <? dots) && isdigit c then digits + 1 else digits in
        scan l dots digits
  end.
(** The characters that strtod reads of digits and dots. *)
Fixpoint skip_digits (l : str) : str :=
  match l with c :: l' => if isdigit c then skip_digits l' else l | [] => [] end.
Definition strtod_rest (l : str) : str :=
  match skip_digits l with c :: r => if c =? 46 then skip_digits r else c :: r | [] => [] end.

(** A byte of the string; the byte after the last is NUL. *)
Definition byte_at (l : str) (i : Z) : outcome Z :=
  match znth (l ++ [0]) i with Some c => Ret c | None => UB end.

(** 421-497: one version statement with a string or another constant. *)
Definition version_statement (declared : option str) (v : option str) : outcome (str + version_error) :=
  match declared with
  | Some _ => Ret (inr Already)
  | None =>
      match v with
      | None => Ret (inr Not_string)
      | Some s =>
          match scan s 0 0 with
          | None => Ret (inr Character)
          | Some (dots, digits) =>
              let! first := byte_at s 0 in
              if negb (isdigit first) then Ret (inr Begin)
              else
                let! last := byte_at s (zlen s - 1) in
                if negb (isdigit last) then Ret (inr End)
                else if negb (dots <=? 1) then Ret (inr Dots)
                else if negb (Z.rem digits 3 =? 0) then Ret (inr Digits)
                else match strtod_rest s with [] => Ret (inl s) | _ => Ret (inr Strtod) end
          end
      end
  end.
Fixpoint version_statements (declared : option str) (l : list (option str)) : outcome (option str + version_error) :=
  match l with
  | [] => Ret (inl declared)
  | v :: l =>
      let! r := version_statement declared v in
      match r with
      | inl s => version_statements (Some s) l
      | inr e => Ret (inr e)
      end
  end.
