(** * Comparators, equality checkers, cloners, points, and Array->equals

    lib/SPVM/Comparator.spvm 11-31, EqualityChecker.spvm 10-32, EqualityChecker/Address.spvm 9-16,
    Cloner.spvm 12-26, Point.spvm 15-68, Point3D.spvm 12-63, Array.spvm: equals_object (466-501),
    equals_object_address (503-505), equals_string (534-559), equals_string_address (561-563),
    equals (1335-1399).

    Simplifications. References to objects are of an arbitrary type; [None] is undef. The
    methods cmp, eq and clone of objects are arbitrary functions that may change a state and may
    throw, but that do not assign to elements of the arrays that are being compared. *)
From Verif Require Import Base CLib Dec Array_model FnMem_model StrCmp_model.
Local Open Scope Z_scope.

Section Objects.
  Variables S R : Type.
  (** The class of the object implements the interface (Comparable, EqualityCheckable, Cloneable). *)
  Variable implements : R -> bool.
  (** OBJECT1->METHOD(OBJECT1, OBJECT2). *)
  Variable method : S -> R -> R -> S * outcome Z.

  Definition e_arg : string := "The object given in the argument must be assigned to the type of the argument of the method.".
  (** spvm_api.c 4809-4833: the check of the arguments of an anonymous method; undef passes. *)
  Definition arg_ok (o : option R) : bool := match o with Some r => implements r | None => true end.

  (** Comparator.spvm 13-28. *)
  Definition default_comparator (s : S) (object1 object2 : option R) : S * outcome Z :=
    if negb (arg_ok object1 && arg_ok object2) then (s, Die e_arg)
    else
      match object1, object2 with
      | Some o1, Some o2 => method s o1 o2
      | Some _, None => (s, Ret 1)
      | None, Some _ => (s, Ret (-1))
      | None, None => (s, Ret 0)
      end.

  (** EqualityChecker.spvm 12-29. *)
  Definition default_equality_checker (s : S) (object1 object2 : option R) : S * outcome Z :=
    if negb (arg_ok object1 && arg_ok object2) then (s, Die e_arg)
    else
      match object1, object2 with
      | Some o1, Some o2 => method s o1 o2
      | Some _, None => (s, Ret 0)
      | None, Some _ => (s, Ret 0)
      | None, None => (s, Ret 1)
      end.

  (** Cloner.spvm 14-23. *)
  Definition default_cloner (clone : S -> R -> S * outcome (option R)) (s : S) (object : option R)
    : S * outcome (option R) :=
    if negb (arg_ok object) then (s, Die e_arg)
    else match object with Some o => clone s o | None => (s, Ret None) end.

  (** Array.spvm 480-485: the loop with an equality checker. *)
  Fixpoint check_loop (checker : S -> option R -> option R -> S * outcome Z) (a1 a2 : list (option R)) (n : nat) (i : Z) (s : S)
    : S * outcome Z :=
    match n with
    | O => (s, Ret 1)
    | Datatypes.S n =>
        match elem_get a1 i, elem_get a2 i with
        | Ret x, Ret y =>
            match checker s x y with
            | (s, Ret r) => if r =? 0 then (s, Ret 0) else check_loop checker a1 a2 n (i + 1) s
            | (s, o) => (s, o)
            end
        | Ret _, o => (s, match o with Die e => Die e | UB => UB | _ => Fuel end)
        | o, _ => (s, match o with Die e => Die e | UB => UB | _ => Fuel end)
        end
    end.

  Variable same : R -> R -> bool.
  (** The operator == on objects: the same address. *)
  Definition address_eq (o1 o2 : option R) : bool :=
    match o1, o2 with
    | Some r1, Some r2 => same r1 r2
    | None, None => true
    | _, _ => false
    end.
  (** EqualityChecker/Address.spvm 9-16. *)
  Definition address_checker (s : S) (object1 object2 : option R) : S * outcome Z :=
    (s, Ret (if address_eq object1 object2 then 1 else 0)).

  (** Array.spvm 466-501; 503-505 passes undef. *)
  Definition equals_object (array1 array2 : option (list (option R)))
      (checker : option (S -> option R -> option R -> S * outcome Z)) (s : S) : S * outcome Z :=
    match checker with
    | None => (s, equals address_eq array1 array2)
    | Some checker =>
        match array1, array2 with
        | None, None => (s, Ret 1)
        | Some _, None => (s, Ret 0)
        | None, Some _ => (s, Ret 0)
        | Some a1, Some a2 =>
            if zlen a1 =? zlen a2 then check_loop checker a1 a2 (Z.to_nat (zlen a1)) 0 s else (s, Ret 0)
        end
    end.

  (** Arrays: of strings, each with its bytes and its reference; of objects; of numbers; and other
      objects. The list is the type name. *)
  Inductive value :=
  | VStrings (l : list (option (list Z * R)))
  | VObjects (type : list Z) (l : list (option R))
  | VNumbers (type : list Z) (b : blob)
  | VOther (type : list Z).
  Definition type_name (v : value) : list Z :=
    match v with VStrings _ => bytes "string[]" | VObjects t _ => t | VNumbers t _ => t | VOther t => t end.
  Definition is_array (v : value) : bool := match v with VOther _ => false | _ => true end.
  Definition bytes_eqb (a b : list Z) : bool := if list_eq_dec Z.eq_dec a b then true else false.

  (** Array.spvm 1335-1399. *)
  Definition array_equals (array1 array2 : option value) (shallow : Z) (s : S) : S * outcome Z :=
    match array1, array2 with
    | None, None => (s, Ret 1)
    | Some _, None => (s, Ret 0)
    | None, Some _ => (s, Ret 0)
    | Some v1, Some v2 =>
        if negb (is_array v1) then (s, Die "The type of the array $array1 must be an array type.")
        else if negb (is_array v2) then (s, Die "The type of the array $array2 must be an array type.")
        else if negb (bytes_eqb (type_name v1) (type_name v2)) then (s, Ret 0)
        else
          match v1, v2 with
          | VStrings l1, VStrings l2 =>
              if negb (shallow =? 0) then equals_object (Some (map (option_map snd) l1)) (Some (map (option_map snd) l2)) None s
              else (s, equals (fun x y => string_comparison NE x y =? 0)
                         (Some (map (option_map fst) l1)) (Some (map (option_map fst) l2)))
          | VObjects _ l1, VObjects _ l2 =>
              equals_object (Some l1) (Some l2) (if negb (shallow =? 0) then None else Some default_equality_checker) s
          | VNumbers _ b1, VNumbers _ b2 =>
              (s, if b_length b1 =? b_length b2 then
                    let! n := c_mul (b_elem_size b1) (b_length b1) in
                    let! r := fn_memcmp [b1; b2] (Some 0) 0 (Some 1) 0 n in
                    Ret (if r =? 0 then 1 else 0)
                  else Ret 0)
          | _, _ => (s, UB)                  (* a type name has one kind of arrays *)
          end
    end.
End Objects.

(** ** Points *)
(** Objects of Point ([p_z] = None) and of Point3D. *)
Record point := Pt { p_x : Z; p_y : Z; p_z : option Z }.
Definition is_3d (p : point) : bool := match p_z p with Some _ => true | None => false end.

(** Point.spvm 15-27: new, with the default values; init. *)
Definition point_new (x y : option Z) : point :=
  Pt (match x with Some x => x | None => 0 end) (match y with Some y => y | None => 0 end) None.
(** Point3D.spvm 12-23. *)
Definition point3d_new (x y z : option Z) : point :=
  let p := point_new x y in
  Pt (p_x p) (p_y p) (Some (match z with Some z => z | None => 0 end)).
(** Point.spvm 29-32, Point3D.spvm 25-28. *)
Definition clear (p : point) : point :=
  let super := Pt 0 0 (p_z p) in
  match p_z p with None => super | Some _ => Pt (p_x super) (p_y super) (Some 0) end.
(** Point.spvm 34-38, Point3D.spvm 30-34. *)
Definition clone (p : point) : point :=
  match p_z p with
  | None => point_new (Some (p_x p)) (Some (p_y p))
  | Some z => point3d_new (Some (p_x p)) (Some (p_y p)) (Some z)
  end.
(** Point.spvm 40-47, Point3D.spvm 36-44. *)
Definition to_string (p : point) : list Z :=
  match p_z p with
  | None => bytes "(" ++ print_dec (p_x p) ++ bytes "," ++ print_dec (p_y p) ++ bytes ")"
  | Some z => bytes "(" ++ print_dec (p_x p) ++ bytes "," ++ print_dec (p_y p) ++ bytes "," ++ print_dec z ++ bytes ")"
  end.
(** Point.spvm 49-68. *)
Definition point_eq (a b : option point) : outcome Z :=
  match a, b with
  | Some a, Some b => Ret (if (p_x a =? p_x b) && (p_y a =? p_y b) then 1 else 0)
  | Some _, None => Ret 0
  | None, Some _ => Ret 0
  | None, None => Ret 1
  end.
(** Point3D.spvm 46-63; the arguments must be of Point3D (spvm_api.c 4809-4833). *)
Definition point3d_eq (a b : option point) : outcome Z :=
  let ok o := match o with Some p => is_3d p | None => true end in
  if negb (ok a && ok b) then Die e_arg
  else
    match a, b with
    | Some a, Some b =>
        match p_z a, p_z b with
        | Some za, Some zb => Ret (if (p_x a =? p_x b) && (p_y a =? p_y b) && (za =? zb) then 1 else 0)
        | _, _ => UB
        end
    | Some _, None => Ret 0
    | None, Some _ => Ret 0
    | None, None => Ret 1
    end.
(** OBJECT->eq(A, B): the method of the class of the object. *)
Definition eq_method (object : point) (a b : option point) : outcome Z :=
  if is_3d object then point3d_eq a b else point_eq a b.
(** References to points with their objects; the state is not changed. *)
Definition points_method (s : unit) (a b : Z * point) : unit * outcome Z :=
  (s, eq_method (snd a) (Some (snd a)) (Some (snd b))).
