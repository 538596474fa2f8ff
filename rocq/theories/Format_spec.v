(** * What Format.sprintf is documented to do (lib/SPVM/Format.pm:80-121) *)
From Verif Require Import Base Dec Utf8_spec VmConv_props FnNum_spec Format_model.

(** [t] is the hexadecimal notation of [v] with the given letters for ten to
    fifteen; no leading zeros. *)
Definition hexadecimal_of (first_letter v : Z) (t : list Z) : Prop :=
  number 16 t v /\ (hd 0 t = 48 -> t = [48]) /\
  Forall (fun c => 48 <= c <= 57 \/ first_letter <= c <= first_letter + 5) t.

(** How a conversion is written. *)
Definition conv_text (c : conv) : list Z :=
  match c with
  | Cx => [120] | CX => [88] | Cc => [99] | Cd => [100] | Cf => [102] | Cg => [103] | Cp => [112] | Cs => [115] | Cu => [117]
  | ClX => [108; 88] | Cld => [108; 100] | Clu => [108; 117] | Clx => [108; 120]
  end.

(** ".digits" or nothing; a dot alone is no precision. *)
Inductive precision_text : list Z -> option Z -> Prop :=
| P_none : precision_text [] None
| P_dot : precision_text [46] None
| P_some : forall ds, ds <> [] -> Forall is_digit ds -> precision_text (46 :: ds) (Some (digits_value ds)).

(** %[flags][width][.precision]conversion *)
Inductive spec_text : list Z -> list Z -> Z -> option Z -> conv -> Prop :=
| Spec : forall flags ds pt p c,
    Forall (fun f => f = 48 \/ f = 43 \/ f = 45) flags ->
    Forall is_digit ds -> hd 0 ds <> 48 -> precision_text pt p ->
    spec_text (37 :: flags ++ ds ++ pt ++ conv_text c) flags (digits_value ds) p c.

(** The value with a plus sign if asked for and it has no minus sign, padded to
    the width: blanks on the right, or zeros or blanks on the left. *)
Definition has (f : Z) (flags : list Z) : bool := existsb (Z.eqb f) flags.
Definition signed (c : conv) : bool := match c with Cd | Cld | Cf | Cg | Cp => true | _ => false end.
Definition with_sign (flags : list Z) (c : conv) (v : list Z) : list Z :=
  if has 43 flags && signed c && negb (hd 0 v =? 45) then 43 :: v else v.
Definition padded (flags : list Z) (w : Z) (v : list Z) : list Z :=
  if has 45 flags then v ++ zrep (w - zlen v) 32
  else zrep (w - zlen v) (if has 48 flags then 48 else 32) ++ v.

Section Args.
  Context {F D : Type}.
  Variable widen : F -> D.
  Variable text_f text_g : D -> option Z -> list Z.

  Definition the_value (a : option (arg F D)) : option (aval F D) := match a with Some a => Some (a_val a) | None => None end.
  Definition the_address (a : option (arg F D)) : Z := match a with Some a => a_addr a | None => 0 end.

  (** [v] is the text for the argument [a]; only the acceptable types have one. *)
  Definition is_int a z := the_value a = Some (VInt z).
  Definition is_long a z := the_value a = Some (VLong z).
  Definition is_double a d := the_value a = Some (VDouble d) \/ exists f, the_value a = Some (VFloat f) /\ d = widen f.
  Definition converted (c : conv) (p : option Z) (a : option (arg F D)) (v : list Z) : Prop :=
    match c with
    | Cd => exists z, is_int a z /\ decimal_of z v
    | Cu => exists z, is_int a z /\ decimal_of (z mod 2 ^ 32) v
    | Cx => exists z, is_int a z /\ hexadecimal_of 97 (z mod 2 ^ 32) v
    | CX => exists z, is_int a z /\ hexadecimal_of 65 (z mod 2 ^ 32) v
    | Cld => exists z, is_long a z /\ decimal_of z v
    | Clu => exists z, is_long a z /\ decimal_of (z mod 2 ^ 64) v
    | Clx => exists z, is_long a z /\ hexadecimal_of 97 (z mod 2 ^ 64) v
    | ClX => exists z, is_long a z /\ hexadecimal_of 65 (z mod 2 ^ 64) v
    | Cc => exists z, (is_int a z \/ the_value a = Some (VByte z)) /\
        ((scalar z /\ wf_char v z) \/ (~ scalar z /\ v = [63]))
    | Cf => exists d, is_double a d /\ v = text_f d p
    | Cg => exists d, is_double a d /\ v = text_g d p
    | Cp => exists t, hexadecimal_of 97 (the_address a) t /\ v = [48; 120] ++ t
    | Cs => exists s, the_value a = Some (VStr s) /\ v = match p with Some n => ztake n s | None => s end
    end.

  (** One piece of the format: its text in the result, the rest of the format
      and the rest of the arguments. *)
  Inductive piece : list Z -> list (option (arg F D)) -> list Z -> list Z -> list (option (arg F D)) -> Prop :=
  | P_char : forall c s args, c <> 37 -> piece (c :: s) args [c] s args
  | P_percent : forall s args, piece (37 :: 37 :: s) args [37] s args
  | P_spec : forall t flags w p c a v s args,
      spec_text t flags w p c -> converted c p a v ->
      piece (t ++ s) (a :: args) (padded flags w (with_sign flags c v)) s args.

  (** The beginning of the format, piece by piece. *)
  Inductive pieces : list Z -> list (option (arg F D)) -> list Z -> list Z -> list (option (arg F D)) -> Prop :=
  | Ps_nil : forall s args, pieces s args [] s args
  | Ps_cons : forall s args out1 s1 args1 out2 s2 args2,
      piece s args out1 s1 args1 -> pieces s1 args1 out2 s2 args2 -> pieces s args (out1 ++ out2) s2 args2.

  (** The whole format; arguments may be left over. *)
  Definition formats (s : list Z) (args : list (option (arg F D))) (out : list Z) : Prop :=
    exists args', pieces s args out [] args'.

  (** The numbers in the format are ints. *)
  Definition numbers_small (s : list Z) : Prop :=
    forall before ds after, s = before ++ ds ++ after -> Forall is_digit ds -> digits_value ds <= INT32_MAX.

  (** Objects as SPVM has them. *)
  Definition arg_ok (a : option (arg F D)) : Prop :=
    match a with
    | None => True
    | Some a => 0 <= a_addr a < 2 ^ 64 /\
        match a_val a with
        | VByte z => in_i8 z | VInt z => in_i32 z | VLong z => in_i64 z
        | VStr s => Forall (fun b => 0 <= b <= 255) s /\ zlen s < INT32_MAX
        | _ => True
        end
    end.

  (** Arguments that sprintf does not handle as documented: strings of which
      nothing is to be shown, or that are shortened although the width is
      larger; floating point texts longer than the buffer. *)
  Definition handled (w : Z) (p : option Z) (c : conv) (a : option (arg F D)) (v : list Z) : Prop :=
    match c with
    | Cs => v <> [] /\ forall n s, p = Some n -> the_value a = Some (VStr s) -> n < zlen s -> w <= n
    | Cf | Cg => v <> [] /\ Forall (fun b => 1 <= b <= 255) v /\
        match p with None => zlen v <= 20 | Some n => n < INT32_MAX - 21 /\ zlen v <= 21 + n end
    | _ => True
    end.
  Definition all_handled (s : list Z) (args : list (option (arg F D))) : Prop :=
    forall out t flags w p c a v s' args',
      pieces s args out (t ++ s') (a :: args') -> spec_text t flags w p c -> converted c p a v -> handled w p c a v.
End Args.
