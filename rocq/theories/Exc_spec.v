(** * What exceptions mean (C68)

    Language/Statements.pm (die), Language/ExceptionHandling.pm and NativeAPI.pm (die).
    An exception has an error ID, a message and the places that it has passed, the
    innermost first. Only the syntax of programs is taken from the model. *)
From Verif Require Import Base CLib Dec Exc_model.
Local Open Scope Z_scope.

Record ex := Ex { x_id : Z; x_message : str; x_places : list (info * Z) }.
(** One line of the stack trace: Class->method at file line N. *)
Definition trace_line (p : info * Z) : str :=
  10 :: bytes "  " ++ i_class (fst p) ++ bytes "->" ++ i_name (fst p) ++ bytes " at " ++ i_file (fst p)
    ++ bytes " line " ++ print_dec (snd p).
(** The text of an exception: the message and its stack trace. *)
Definition text (x : ex) : str := x_message x ++ concat (map trace_line (x_places x)).
Definition through (x : ex) (i : info) (line : Z) : ex := Ex (x_id x) (x_message x) (x_places x ++ [(i, line)]).

(** The message of a native method: the format with its arguments put in, and the place. *)
Inductive piece := Lit (c : Z) | Arg (a : arg).
Definition piece_format (p : piece) : str :=
  match p with Lit c => if c =? 37 then [37; 37] else [c] | Arg (AStr _) => [37; 115] | Arg (AInt _) => [37; 100] end.
Definition piece_args (p : piece) : list arg := match p with Lit _ => [] | Arg a => [a] end.
Definition piece_text (p : piece) : str :=
  match p with Lit c => [c] | Arg (AStr s) => s | Arg (AInt z) => print_dec z end.
Definition native_text (ps : list piece) (func file : str) (line : Z) : str :=
  concat (map piece_text ps) ++ 10 :: bytes "    " ++ func ++ bytes " at " ++ file ++ bytes " line " ++ print_dec line.

(** What happened, for the limits of the implementation. *)
Inductive event :=
| Died (id : Z) (message : option str)          (* a die statement with this operand *)
| Passed (depth : Z) (x : ex)                    (* an exception with this place, at this call depth *)
| Formatted (format : str) (args : list arg) (func file : str) (line : Z) (t : str).  (* a message of a native method *)

Record world := World { var : option str; seen : list entry; events : list event }.
Definition w_var (w : world) v := World v (seen w) (events w).
Definition w_see (w : world) e := World (var w) (seen w ++ [e]) (events w).
Definition w_event (w : world) e := World (var w) (seen w) (events w ++ [e]).

Section Meaning.
  Variable methods : nat -> option method.
  (** The text of the message of native methods. *)
  Variable native_message : str -> list arg -> str -> str -> Z -> option str.
  (** The message of a call that is too deep. *)
  Definition too_deep : str :=
    bytes "Deep recursion occurs. The depth of a method call must be less than 1000." ++
    10 :: bytes "    SPVM_API_call_method_common at spvm_api.c line 4803".

  Definition operand (m : message) (w : world) : option str :=
    match m with MNone | MUndef => Some (bytes "Error") | MVal v => v | MExc => var w end.
  Definition or_error (v : option str) : str := match v with Some t => t | None => bytes "Error" end.

  (** A method has ended normally ([None]) or with an exception. The exception
      variable is set by an eval that catches an exception, by assignments, and
      cleared at the start of an eval. [None] as the whole result: more fuel is needed. *)
  Fixpoint does (fuel : nat) (d : Z) (i : info) (b : stmts) (e : Z) (w : world) : option (option ex * Z * world) :=
    match fuel with
    | O => None
    | S f =>
        match b with
        | Nil => Some (None, e, w)
        | Cons (Die_ id m line) _ =>
            let x := Ex id (or_error (operand m w)) [(i, line)] in
            Some (Some x, e, w_event (w_event w (Died id (operand m w))) (Passed d x))
        | Cons (Call c line) b =>
            match invokes f (d + 1) c w with
            | None => None
            | Some (None, w) => does f d i b e w
            | Some (Some x, w) => Some (Some (through x i line), e, w_event w (Passed d (through x i line)))
            end
        | Cons (Eval b1) b =>
            match does f d i b1 0 (w_var w None) with
            | None => None
            | Some (None, e, w) => does f d i b e w
            | Some (Some x, _, w) => does f d i b (x_id x) (w_var w (Some (text x)))
            end
        | Cons (Branch g b1 b2) b =>
            match does f d i (if g (var w) e then b1 else b2) e w with
            | Some (None, e, w) => does f d i b e w
            | r => r
            end
        | Cons (Set_exc v) b => does f d i b e (w_var w v)
        | Cons Log b => does f d i b e (w_see w (Seen (var w) e))
        | Cons (Free c) b => match frees f (d + 1) c w with None => None | Some w => does f d i b e w end
        end
    end
  with invokes (fuel : nat) (d : Z) (c : nat) (w : world) : option (option ex * world) :=
    match fuel with
    | O => None
    | S f =>
        if 1000 <? d then Some (Some (Ex 18 too_deep []), w)
        else match methods c with
        | None => None
        | Some (Vm i b l) =>
            match does f d i b 0 w with
            | None => None
            | Some (x, _, w) => match frees_all f (d + 1) l w with None => None | Some w => Some (x, w) end
            end
        | Some (Native b) => natively f d b w
        end
    end
  with natively (fuel : nat) (d : Z) (b : list native) (w : world) : option (option ex * world) :=
    match fuel with
    | O => None
    | S f =>
        match b with
        | [] => Some (None, w)
        | N_die format args func file line :: _ =>
            match native_message format args func file line with
            | None => None
            | Some t => Some (Some (Ex 18 t []), w_event w (Formatted format args func file line t))
            end
        | N_call c :: b =>
            match invokes f (d + 1) c w with Some (None, w) => natively f d b w | r => r end
        | N_try c :: b =>
            match invokes f (d + 1) c w with
            | None => None
            | Some (None, w) => natively f d b w
            | Some (Some x, w) => natively f d b (w_var w (Some (text x)))
            end
        | N_set v :: b => natively f d b (w_var w v)
        | N_return id :: _ =>
            Some (if id =? 0 then None else Some (Ex id (or_error (var w)) []), w)
        end
    end
  (** A destructor: it has an exception variable of its own, and its exception becomes
      a warning. *)
  with frees (fuel : nat) (d : Z) (c : nat) (w : world) : option world :=
    match fuel with
    | O => None
    | S f =>
        match invokes f d c (w_var w None) with
        | None => None
        | Some (None, w') => Some (w_var w' (var w))
        | Some (Some x, w') => Some (w_var (w_see w' (Warned (c_str (text x)))) (var w))
        end
    end
  with frees_all (fuel : nat) (d : Z) (l : list nat) (w : world) : option world :=
    match fuel with
    | O => None
    | S f =>
        match l with
        | [] => Some w
        | c :: l => match frees f d c w with None => None | Some w => frees_all f d l w end
        end
    end.
End Meaning.

(** The messages of native methods as documented: for a format made of pieces. *)
Definition documented (format : str) (args : list arg) (func file : str) (line : Z) (t : str) : Prop :=
  exists ps, format = concat (map piece_format ps) /\ args = concat (map piece_args ps)
    /\ t = native_text ps func file line.

(** The limits: die statements have an ID other than 0 and a message that is not
    undef; exceptions pass methods at a call depth of at most 100 and have a text of less
    than 2 GB; a format of a native method has at most 255 bytes and its text 511. *)
Definition within (e : event) : Prop :=
  match e with
  | Died id m => id <> 0 /\ m <> None
  | Passed d x => d <= 100 /\ zlen (text x) <= INT32_MAX
  | Formatted format args func file line t =>
      documented format args func file line t /\ zlen format <= 255 /\ zlen t <= 511 /\ ~ In 0 t
  end.
