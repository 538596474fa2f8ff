(** * Immutable lists

    lib/SPVM/Immutable/IntList.spvm 13-72 (ByteList, ShortList, LongList, FloatList and
    DoubleList have the same text but for the type and for line 70 of DoubleList.spvm) and
    lib/SPVM/Immutable/StringList.spvm 13-75; copy and make_read_only of strings
    (lib/SPVM/Builder/src/spvm_api.c 3667-3672, 4140-4143, 4432-4466).

    Around the lists there is a client, which performs any operations on what it holds.
    Everything it ever got is in [regs], which only grows; so reading a variable, a field or
    an element of an object[] gives nothing new and is left out. The lists' field [array] is
    private. Numbers are integers. Copying a range (memcpy_int, memcpy_object_address) is
    proved in C38 and C43 and is one step here; a client that copies into its own arrays is
    one that assigns the elements. *)
From Verif Require Import Base.
Local Open Scope Z_scope.

Notation text := (list Z).
Inductive value :=
| VVoid
| VNum (z : Z)
| VString (q : option nat)        (* string *)
| VMutable (q : nat)              (* mutable string *)
| VNums (a : option nat)          (* int[] *)
| VStrs (a : option nat)          (* string[] *)
| VNList (k : nat)                (* Immutable::IntList *)
| VSList (k : nat).               (* Immutable::StringList *)

(** Arrays, strings with their read-only flag, lists with the fields length and array. *)
Record state := St { nums : list (list Z); strs : list (list (option nat)); strings : list (text * bool);
                     nlists : list (Z * nat); slists : list (Z * nat); regs : list value }.
Definition empty : state := St [] [] [] [] [] [].

Inductive op :=
| New_nums (n : Z) | New_strs (n : Z) | New_string (b : text)
| As_string (r : nat) | As_mutable (r : nat) | Read_only (r : nat) | Copy (r : nat) | Set_byte (r : nat) (i b : Z) | Undef_nums | Undef_strs
| Set_num (r : nat) (i z : Z) | Get_num (r : nat) (i : Z) | Set_str (r : nat) (i : Z) (r' : nat) | Set_undef (r : nat) (i : Z) | Get_str (r : nat) (i : Z)
| N_new (r : nat) | N_new_len (n : Z) | N_length (r : nat) | N_get (r : nat) (i : Z) | N_to_array (r : nat)
| S_new (r : nat) | S_new_len (n : Z) | S_length (r : nat) | S_get (r : nat) (i : Z) | S_to_array (r : nat)
| Cast_object (r : nat).          (* (mutable string)(object)$string; see C27 *)

Fixpoint set_nth {A} (l : list A) (n : nat) (x : A) : list A :=
  match l, n with
  | [], _ => []
  | _ :: l, O => x :: l
  | y :: l, S n => y :: set_nth l n x
  end.

(** Changes of the state. *)
Definition push (v : value) (s : state) : state := St (nums s) (strs s) (strings s) (nlists s) (slists s) (regs s ++ [v]).
Definition add_nums (l : list Z) (s : state) : state := St (nums s ++ [l]) (strs s) (strings s) (nlists s) (slists s) (regs s).
Definition add_strs (l : list (option nat)) (s : state) : state := St (nums s) (strs s ++ [l]) (strings s) (nlists s) (slists s) (regs s).
Definition set_nums (a : nat) (l : list Z) (s : state) : state := St (set_nth (nums s) a l) (strs s) (strings s) (nlists s) (slists s) (regs s).
Definition set_strs (a : nat) (l : list (option nat)) (s : state) : state := St (nums s) (set_nth (strs s) a l) (strings s) (nlists s) (slists s) (regs s).
Definition set_strings (t : list (text * bool)) (s : state) : state := St (nums s) (strs s) t (nlists s) (slists s) (regs s).
Definition add_nlist (k : Z * nat) (s : state) : state := St (nums s) (strs s) (strings s) (nlists s ++ [k]) (slists s) (regs s).
Definition add_slist (k : Z * nat) (s : state) : state := St (nums s) (strs s) (strings s) (nlists s) (slists s ++ [k]) (regs s).

Definition deref {A} (l : list A) (a : option nat) : outcome A :=
  match a with
  | None => Die "The array must be defined."
  | Some a => match nth_error l a with Some x => Ret x | None => UB end
  end.
Definition element {A} (l : list A) (i : Z) : outcome A :=
  match znth l i with Some x => Ret x | None => Die "The index is out of range." end.

(** spvm_api.c 3667-3672: the basic type is read before the test for NULL. *)
Definition make_read_only (t : list (text * bool)) (q : option nat) : outcome (list (text * bool)) :=
  match q with
  | None => UB
  | Some q => match nth_error t q with Some (b, _) => Ret (set_nth t q (b, true)) | None => UB end
  end.
(** spvm_api.c 4432-4466: the copy of a string is not read-only. *)
Definition copy (t : list (text * bool)) (q : option nat) : outcome (option nat * list (text * bool)) :=
  match q with
  | None => Ret (None, t)
  | Some q => match nth_error t q with Some (b, _) => Ret (Some (length t), t ++ [(b, false)]) | None => UB end
  end.
(** memcpy_int and memcpy_object_address with offsets 0. *)
Definition memcpy {A} (dst src : list A) (len : Z) : outcome (list A) :=
  if (0 <=? len) && (len <=? zlen dst) && (len <=? zlen src) then Ret (ztake len src ++ zdrop len dst)
  else Die "The range must be in the arrays.".

(** IntList.spvm 31-42, StringList.spvm 35-46. *)
Definition new_len_message := "The length $length must be greater than or equal to 0."%string.
Definition new_array {A} (n : Z) (x : A) : outcome (list A) := if 0 <=? n then Ret (zrep n x) else Die new_len_message.
(** StringList.spvm 25-29. *)
Fixpoint copy_loop (l : list (option nat)) (i : nat) (dst : list (option nat)) (t : list (text * bool))
  : outcome (list (option nat) * list (text * bool)) :=
  match l with
  | [] => Ret (dst, t)
  | q :: l =>
      let! (v, t) := copy t q in
      let! t := make_read_only t v in
      copy_loop l (S i) (set_nth dst i v) t
  end.
(** IntList.spvm 45-59, StringList.spvm 49-63. *)
Definition negative_message := "The index $index must be greater than or equal to 0."%string.
Definition large_message := "The index $index must be less than the length of $list."%string.
Definition get {A} (len : Z) (l : list A) (i : Z) : outcome A :=
  if negb (0 <=? i) then Die negative_message
  else if negb (i <? len) then Die large_message
  else element l i.

Definition reg (s : state) (r : nat) : value := nth r (regs s) VVoid.
Definition ill {A} : outcome A := Die "not compiled".

(** One operation of the client; [shares]: to_array returns $array, not $new_array
    (DoubleList.spvm 70). A list gets its array before anybody can see it. *)
Definition step (shares : bool) (o : op) (s : state) : outcome state :=
  match o with
  | New_nums n => let! l := new_array n 0 in Ret (push (VNums (Some (length (nums s)))) (add_nums l s))
  | New_strs n => let! l := new_array n None in Ret (push (VStrs (Some (length (strs s)))) (add_strs l s))
  | New_string b => Ret (push (VMutable (length (strings s))) (set_strings (strings s ++ [(b, false)]) s))
  | As_string r => match reg s r with VMutable q => Ret (push (VString (Some q)) s) | _ => ill end
  | As_mutable r =>
      match reg s r with
      | VString (Some q) =>
          match nth_error (strings s) q with
          | Some (_, true) => Die "The string must not be a read-only string."
          | Some (_, false) => Ret (push (VMutable q) s)
          | None => UB
          end
      | _ => ill
      end
  | Read_only r =>
      match reg s r with
      | VString q => let! t := make_read_only (strings s) q in Ret (push VVoid (set_strings t s))
      | VMutable q => let! t := make_read_only (strings s) (Some q) in Ret (push VVoid (set_strings t s))
      | _ => ill
      end
  | Copy r =>
      match reg s r with
      | VString q => let! (v, t) := copy (strings s) q in Ret (push (match v with Some q => VMutable q | None => VString None end) (set_strings t s))
      | VMutable q => let! (v, t) := copy (strings s) (Some q) in Ret (push (match v with Some q => VMutable q | None => VString None end) (set_strings t s))
      | _ => ill
      end
  | Set_byte r i b =>
      match reg s r with
      | VMutable q =>
          match nth_error (strings s) q with
          | Some (t, ro) => let! _ := element t i in Ret (push VVoid (set_strings (set_nth (strings s) q (zupd t i b, ro)) s))
          | None => UB
          end
      | _ => ill
      end
  | Undef_nums => Ret (push (VNums None) s)
  | Undef_strs => Ret (push (VStrs None) s)
  | Set_num r i z =>
      match reg s r with
      | VNums (Some a) => let! l := deref (nums s) (Some a) in let! _ := element l i in Ret (push VVoid (set_nums a (zupd l i z) s))
      | _ => ill
      end
  | Get_num r i => match reg s r with VNums a => let! l := deref (nums s) a in let! z := element l i in Ret (push (VNum z) s) | _ => ill end
  | Set_str r i r' =>
      match reg s r, reg s r' with
      | VStrs (Some a), VString q => let! l := deref (strs s) (Some a) in let! _ := element l i in Ret (push VVoid (set_strs a (zupd l i q) s))
      | VStrs (Some a), VMutable q => let! l := deref (strs s) (Some a) in let! _ := element l i in Ret (push VVoid (set_strs a (zupd l i (Some q)) s))
      | _, _ => ill
      end
  | Set_undef r i =>
      match reg s r with
      | VStrs (Some a) => let! l := deref (strs s) (Some a) in let! _ := element l i in Ret (push VVoid (set_strs a (zupd l i None) s))
      | _ => ill
      end
  | Get_str r i => match reg s r with VStrs a => let! l := deref (strs s) a in let! q := element l i in Ret (push (VString q) s) | _ => ill end
  | N_new r =>
      match reg s r with
      | VNums None => let! l := new_array 0 0 in Ret (push (VNList (length (nlists s))) (add_nlist (0, length (nums s)) (add_nums l s)))
      | VNums (Some a) =>
          let! src := deref (nums s) (Some a) in
          let! l := new_array (zlen src) 0 in
          let! l := memcpy l src (zlen src) in
          Ret (push (VNList (length (nlists s))) (add_nlist (zlen src, length (nums s)) (add_nums l s)))
      | _ => ill
      end
  | N_new_len n => let! l := new_array n 0 in Ret (push (VNList (length (nlists s))) (add_nlist (n, length (nums s)) (add_nums l s)))
  | N_length r =>
      match reg s r with
      | VNList k => match nth_error (nlists s) k with Some (len, _) => Ret (push (VNum len) s) | None => UB end
      | _ => ill
      end
  | N_get r i =>
      match reg s r with
      | VNList k =>
          match nth_error (nlists s) k with
          | Some (len, a) => let! l := deref (nums s) (Some a) in let! z := get len l i in Ret (push (VNum z) s)
          | None => UB
          end
      | _ => ill
      end
  | N_to_array r =>
      match reg s r with
      | VNList k =>
          match nth_error (nlists s) k with
          | Some (len, a) =>
              let! dst := new_array len 0 in
              let! l := deref (nums s) (Some a) in
              let! dst := memcpy dst l len in
              Ret (push (VNums (Some (if shares then a else length (nums s)))) (add_nums dst s))
          | None => UB
          end
      | _ => ill
      end
  | S_new r =>
      match reg s r with
      | VStrs None => let! l := new_array 0 None in Ret (push (VSList (length (slists s))) (add_slist (0, length (strs s)) (add_strs l s)))
      | VStrs (Some a) =>
          let! src := deref (strs s) (Some a) in
          let! l := new_array (zlen src) None in
          let! (l, t) := copy_loop src 0 l (strings s) in
          Ret (push (VSList (length (slists s))) (add_slist (zlen src, length (strs s)) (add_strs l (set_strings t s))))
      | _ => ill
      end
  | S_new_len n => let! l := new_array n None in Ret (push (VSList (length (slists s))) (add_slist (n, length (strs s)) (add_strs l s)))
  | S_length r =>
      match reg s r with
      | VSList k => match nth_error (slists s) k with Some (len, _) => Ret (push (VNum len) s) | None => UB end
      | _ => ill
      end
  | S_get r i =>
      match reg s r with
      | VSList k =>
          match nth_error (slists s) k with
          | Some (len, a) => let! l := deref (strs s) (Some a) in let! q := get len l i in Ret (push (VString q) s)
          | None => UB
          end
      | _ => ill
      end
  | S_to_array r =>
      match reg s r with
      | VSList k =>
          match nth_error (slists s) k with
          | Some (len, a) =>
              let! dst := new_array len None in
              let! l := deref (strs s) (Some a) in
              let! dst := memcpy dst l len in
              Ret (push (VStrs (Some (length (strs s)))) (add_strs dst s))
          | None => UB
          end
      | _ => ill
      end
  | Cast_object r => match reg s r with VString (Some q) => Ret (push (VMutable q) s) | _ => ill end
  end.

(** A history: an operation that throws has no effect. *)
Fixpoint run (shares : bool) (h : list op) (s : state) : outcome state :=
  match h with
  | [] => Ret s
  | o :: h => match step shares o s with Ret s' => run shares h s' | Die _ => run shares h s | UB => UB | Fuel => Fuel end
  end.
