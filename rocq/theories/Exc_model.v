(** * Exceptions: the exception variable, stack traces and messages of native methods

    Builder/src/spvm_api.c: SPVM_API_die (2641-2670), new_stack_trace_no_mortal
    (3130-3197), set_exception and get_exception (3692-3708), call_method_native
    (4739-4790), call_method_common (4792-4897), the call of DESTROY (5192-5226);
    spvm_vm.c: GOTO_END_OF_EVAL_ON_EXCEPTION, GOTO_END_OF_METHOD_ON_EXCEPTION (210-230),
    CLEAR_EVAL_ERROR_ID, GET_EVAL_ERROR_ID, SET_ERROR_ID (1416-1435), exception variable
    (1326-1336); spvm_op.c: SPVM_OP_build_die (3062-3085); spvm_opcode_builder.c: the
    start of an eval block (314-329), die (763-787).

    Simplifications.
    - A method is the statements that have to do with exceptions. A branch reads the
      exception variable and eval_error_id; everything else that a program computes is
      in the choice of the branch. The values of string operands are given.
    - The call depth is an argument (C21 proves that a call restores it).
    - The objects that a method releases at its end are the DESTROY methods that run.
    - Reference counts of the exception string are left out (C10); memory is not short.
    - The checks of argument types before a call are left out. *)
From Verif Require Import Base CLib Dec.
Local Open Scope Z_scope.

Definition str := list Z.

(** The message of a die statement: none, the undef literal, an operand with the value
    it has, or $@. *)
Inductive message := MNone | MUndef | MVal (v : option str) | MExc.

Inductive stmt :=
| Die_ (id : Z) (m : message) (line : Z)      (* die ID, MESSAGE *)
| Call (callee : nat) (line : Z)
| Eval (b : stmts)
| Branch (f : option str -> Z -> bool) (b c : stmts)   (* on $@ and eval_error_id *)
| Set_exc (v : option str)                     (* $@ = v *)
| Log                                          (* reads $@ and eval_error_id *)
| Free (destroy : nat)                         (* the release of an object with DESTROY *)
with stmts := Nil | Cons (s : stmt) (b : stmts).

(** Arguments of a native message. *)
Inductive arg := AStr (s : str) | AInt (z : Z).

(** The steps of a native method: env->die and return; call a method and return its
    error; call a method and go on; set the exception variable; return an error ID. *)
Inductive native :=
| N_die (format : str) (args : list arg) (func file : str) (line : Z)
| N_call (callee : nat)
| N_try (callee : nat)
| N_set (v : option str)
| N_return (id : Z).

Record info := Info { i_class : str; i_name : str; i_file : str }.
Inductive method := Vm (i : info) (b : stmts) (at_end : list nat) | Native (b : list native).

(** What can be seen: the values read by [Log], and the warnings of DESTROY. *)
Inductive entry := Seen (exc : option str) (id : Z) | Warned (text : str).

Definition ERROR_CLASS := 18.
Definition BUFFER := 512.       (* SPVM_NATIVE_C_STACK_TMP_BUFFER_SIZE *)

(** vsnprintf, for the conversions %s, %d, %i and %%. Another conversion, a missing
    argument or one of the wrong kind is undefined. *)
Fixpoint expand (format : str) (args : list arg) : outcome str :=
  match format with
  | [] => Ret []
  | c :: format =>
      if c =? 37 then
        match format with
        | [] => UB
        | k :: format =>
            if k =? 115 then
              match args with AStr s :: args => let! r := expand format args in Ret (s ++ r) | _ => UB end
            else if (k =? 100) || (k =? 105) then
              match args with AInt z :: args => let! r := expand format args in Ret (print_dec z ++ r) | _ => UB end
            else if k =? 37 then let! r := expand format args in Ret (37 :: r)
            else UB
        end
      else let! r := expand format args in Ret (c :: r)
  end.

(** spvm_api.c:2641-2670 [SPVM_API_die]: the text of the exception. *)
Definition place_format : str := 10 :: bytes "    %s at %s line %d".
Definition die_text (format : str) (args : list arg) (func file : str) (line : Z) : outcome str :=
  let length := if 255 <? zlen format then 255 else zlen format in
  let! r := expand (ztake length format ++ place_format) (args ++ [AStr func; AStr file; AInt line]) in
  Ret (c_str (ztake (BUFFER - 1) r)).

(** spvm_api.c:3130-3197 [SPVM_API_new_stack_trace_no_mortal]. The length is an int32_t;
    a negative one gives no string; the bytes written must be those allocated. *)
Definition new_line_part : str := 10 :: bytes "  ".
Definition new_stack_trace (depth : Z) (exc : option str) (i : info) (line : Z) : outcome (option str) :=
  if 100 <? depth then Ret exc
  else match exc with
  | None => UB
  | Some t =>
      let total := wrap32 (zlen t + zlen new_line_part + zlen (i_class i) + zlen (bytes "->") + zlen (i_name i)
                           + zlen (bytes " at ") + zlen (i_file i) + zlen (bytes " line ") + zlen (print_dec line)) in
      if total <? 0 then Ret None
      else
        let r := t ++ new_line_part ++ i_class i ++ bytes "->" ++ i_name i ++ bytes " at " ++ i_file i
                   ++ bytes " line " ++ print_dec line in
        if zlen r =? total then Ret (Some r) else UB
  end.

Section Run.
  Variable methods : nat -> option method.

  Record state := State { exc : option str; out : list entry }.
  Definition set_exc (s : state) (v : option str) : state := State v (out s).
  Definition log (s : state) (e : entry) : state := State (exc s) (out s ++ [e]).

  Definition MAX_CALL_DEPTH := 1000.
  Definition deep_format : str := bytes "Deep recursion occurs. The depth of a method call must be less than %d.".

  (** spvm_op.c:3062-3074. *)
  Definition message_value (m : message) (s : state) : option str :=
    match m with
    | MNone | MUndef => Some (bytes "Error")
    | MVal v => v
    | MExc => exc s
    end.

  (** The statements of a VM method: the error ID, eval_error_id and the state. *)
  Fixpoint run (fuel : nat) (d : Z) (i : info) (b : stmts) (e : Z) (s : state) : outcome (Z * Z * state) :=
    match fuel with
    | O => Fuel
    | S f =>
        match b with
        | Nil => Ret (0, e, s)
        | Cons (Die_ id m line) b =>
            let s := set_exc s (message_value m s) in
            if id =? 0 then run f d i b e s
            else let! x := new_stack_trace d (exc s) i line in Ret (id, e, set_exc s x)
        | Cons (Call c line) b =>
            let! (err, s) := call f (d + 1) c s in
            if err =? 0 then run f d i b e s
            else let! x := new_stack_trace d (exc s) i line in Ret (err, e, set_exc s x)
        | Cons (Eval b1) b =>
            let! (err, e, s) := run f d i b1 0 (set_exc s None) in
            if err =? 0 then run f d i b e s else run f d i b err s
        | Cons (Branch g b1 b2) b =>
            let! (err, e, s) := run f d i (if g (exc s) e then b1 else b2) e s in
            if err =? 0 then run f d i b e s else Ret (err, e, s)
        | Cons (Set_exc v) b => run f d i b e (set_exc s v)
        | Cons Log b => run f d i b e (log s (Seen (exc s) e))
        | Cons (Free c) b => let! s := destroy f (d + 1) c s in run f d i b e s
        end
    end
  (** spvm_api.c:4792-4897 and, for native methods, 4739-4790; [d] is the depth after
      it has been increased. *)
  with call (fuel : nat) (d : Z) (c : nat) (s : state) : outcome (Z * state) :=
    match fuel with
    | O => Fuel
    | S f =>
        if MAX_CALL_DEPTH <? d then
          let! t := die_text deep_format [AInt MAX_CALL_DEPTH] (bytes "SPVM_API_call_method_common") (bytes "spvm_api.c") 4803 in
          Ret (ERROR_CLASS, set_exc s (Some t))
        else match methods c with
        | None => UB
        | Some (Vm i b l) =>
            let! (err, _, s) := run f d i b 0 s in
            let! s := destroy_all f (d + 1) l s in Ret (err, s)
        | Some (Native b) =>
            let! (err, s) := run_native f d b s in
            if negb (err =? 0) && match exc s with None => true | _ => false end
            then Ret (err, set_exc s (Some (bytes "Error"))) else Ret (err, s)
        end
    end
  with run_native (fuel : nat) (d : Z) (b : list native) (s : state) : outcome (Z * state) :=
    match fuel with
    | O => Fuel
    | S f =>
        match b with
        | [] => Ret (0, s)
        | N_die format args func file line :: _ =>
            let! t := die_text format args func file line in Ret (ERROR_CLASS, set_exc s (Some t))
        | N_call c :: b =>
            let! (err, s) := call f (d + 1) c s in
            if err =? 0 then run_native f d b s else Ret (err, s)
        | N_try c :: b => let! (err, s) := call f (d + 1) c s in run_native f d b s
        | N_set v :: b => run_native f d b (set_exc s v)
        | N_return id :: _ => Ret (id, s)
        end
    end
  (** spvm_api.c:5192-5226. *)
  with destroy (fuel : nat) (d : Z) (c : nat) (s : state) : outcome state :=
    match fuel with
    | O => Fuel
    | S f =>
        let saved := exc s in
        let! (err, s) := call f d c (set_exc s None) in
        if err =? 0 then Ret (set_exc s saved)
        else match exc s with
        | None => UB
        | Some t => Ret (set_exc (log s (Warned (c_str t))) saved)
        end
    end
  with destroy_all (fuel : nat) (d : Z) (l : list nat) (s : state) : outcome state :=
    match fuel with
    | O => Fuel
    | S f =>
        match l with
        | [] => Ret s
        | c :: l => let! s := destroy f d c s in destroy_all f d l s
        end
    end.
End Run.
