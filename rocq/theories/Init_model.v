(** * Model of the INIT methods: construction and execution

    Builder/src/spvm_op.c 879-902 (the INIT statements of a class are merged
    into one method), spvm_check.c 410-453 (calls of the INIT methods of the
    parent class and of the used classes are put in front), spvm_api.c
    SPVM_API_call_init_methods (357-378) and the part of
    SPVM_API_call_method_common (4791-4892) that concerns INIT methods and the
    call depth.

    Simplifications.
    - A class is identified by its basic type id. The names in use statements
      and in "extends" are resolved ([None]: not found).
    - The user's statements are reduced to what matters here: observable
      events, calls of INIT methods, calls of other methods (whose statements
      are inlined, one level deeper), dying, eval, branches and finite loops,
      both controlled by the history. Statements that do not terminate are not
      modelled.
    - One thread. *)

From Verif Require Import Base.

(** What happens: the INIT method of a class starts, a statement of the class
    has an effect, the INIT method returns, or it dies. *)
Inductive event : Type :=
| Start (c : Z) | Effect (c : Z) (e : Z) | End (c : Z) | Fail (c : Z).

Inductive stmt : Type :=
| SEffect (e : Z)
| SInit (c : Z)                                    (* C->INIT *)
| SMethod (s : stmt)                               (* a call of a method with these statements *)
| SDie
| SEval (s : stmt)
| SSkip
| SSeq (s1 s2 : stmt)
| SIf (b : list event -> bool) (s1 s2 : stmt)
| SRepeat (n : list event -> nat) (s : stmt).

(** The part of a basic type that is read. *)
Record cls : Type := {
  c_user_defined : bool;          (* a class, an interface or a multi-numeric type *)
  c_is_class : bool;              (* category is SPVM_NATIVE_C_BASIC_TYPE_CATEGORY_CLASS *)
  c_parent : option Z;            (* "extends" *)
  c_uses : list (option Z);       (* use_basic_type_names, in order *)
  c_inits : list stmt             (* the blocks of the INIT statements, in order *)
}.

(** initialized flags, and the history, latest first. *)
Record state : Type := { initialized : Z -> bool; history : list event }.
Definition mark (c : Z) (s : state) : state :=
  {| initialized := fun d => if d =? c then true else initialized s d; history := Start c :: history s |}.
Definition emit (e : event) (s : state) : state :=
  {| initialized := initialized s; history := e :: history s |}.

Section Program.
  Variable p : Z -> cls.

  (** spvm_op.c:880-902: a user-defined type has an INIT method, with the
      INIT blocks in order. *)
  Definition merged_inits (c : Z) : list stmt := c_inits (p c).
  Definition has_init (c : Z) : bool := c_user_defined (p c).

  (** spvm_check.c:424-441: the use statements are walked from the last to the
      first, each call is inserted in front of the statements. *)
  Fixpoint insert_uses (rev_uses : list (option Z)) (stmts : list stmt) : list stmt :=
    match rev_uses with
    | [] => stmts
    | None :: r => insert_uses r stmts
    | Some u :: r =>
        if c_is_class (p u) then insert_uses r (SInit u :: stmts) else insert_uses r stmts
    end.

  (** spvm_check.c:412-453: then the call for the parent class. *)
  Definition init_method (c : Z) : list stmt :=
    let stmts := insert_uses (rev (c_uses (p c))) (merged_inits c) in
    match c_parent (p c) with
    | Some d => SInit d :: stmts
    | None => stmts
    end.

  Fixpoint seq (l : list stmt) : stmt := match l with [] => SSkip | s :: r => SSeq s (seq r) end.

  (** The statement [s] of the class [c] inside a method, when [r] more levels
      of method calls are possible. The boolean is false if the statement
      dies. *)
  Fixpoint exec (r : nat) : Z -> stmt -> state -> bool * state :=
    fix go (c : Z) (s : stmt) (st : state) {struct s} : bool * state :=
      match s with
      | SEffect e => (true, emit (Effect c e) st)
      | SInit d =>
          (* spvm_api.c:4797-4804: the call depth; 4835-4843: the flag *)
          match r with
          | O => (false, st)
          | S r' =>
              if negb (has_init d) then (true, st)
              else if initialized st d then (true, st)
              else
                let (ok, st') := exec r' d (seq (init_method d)) (mark d st) in
                (ok, emit (if ok then End d else Fail d) st')
          end
      | SMethod s' => match r with O => (false, st) | S r' => exec r' c s' st end
      | SDie => (false, st)
      | SEval s' => (true, snd (go c s' st))
      | SSkip => (true, st)
      | SSeq s1 s2 => let (ok, st') := go c s1 st in if ok then go c s2 st' else (false, st')
      | SIf b s1 s2 => if b (history st) then go c s1 st else go c s2 st
      | SRepeat n s' =>
          (fix loop (k : nat) (st : state) {struct k} : bool * state :=
             match k with
             | O => (true, st)
             | S k' => let (ok, st') := go c s' st in if ok then loop k' st' else (false, st')
             end) (n (history st)) st
      end.

  (** spvm_api.c:4799: max_call_depth. *)
  Definition MAX_CALL_DEPTH : nat := Z.to_nat 1000.

  (** SPVM_API_call_init_methods, spvm_api.c:357-378: the basic types in the
      order of their ids, until an error. *)
  Fixpoint call_init_loop (ids : list Z) (st : state) : bool * state :=
    match ids with
    | [] => (true, st)
    | c :: r =>
        let (ok, st') := exec MAX_CALL_DEPTH c (SInit c) st in
        if ok then call_init_loop r st' else (false, st')
    end.
  Definition ids (n : Z) : list Z := map Z.of_nat (List.seq 0 (Z.to_nat n)).
  Definition call_init_methods (basic_types_length : Z) (st : state) : bool * state :=
    call_init_loop (ids basic_types_length) st.
End Program.

(** spvm_runtime_basic_type.h: the flag is zero at first. *)
Definition fresh : state := {| initialized := fun _ => false; history := [] |}.
