(** * The tokenizer (lib/SPVM/Builder/src/spvm_toke.c:34-2604)

    One source file. As in Toke_model.v (where the literals are) a pointer into
    the source is the list of the bytes from there on, with the terminating NUL;
    reading through a pointer past the NUL is [UB], a compilation error is
    [Die], and the model stops at the first error.

    Simplifications.
    - Two pointers are compared by the lengths of their lists: all are pointers
      into the same source.
    - The line number is not bounded (the code adds to an int32_t).
    - A token is the parser's token with the op id or flag of the node given
      to the parser; columns are left out.
    - At the end of the file the tokenizer returns END_OF_FILE; the loading of
      the next class file at the call after that is not part of this model. *)
From Verif Require Import Base CLib CStrto FnMem_model Toke_model.

(** ** Tokens *)
Inductive token (K : Type) :=
| Tok (t o : string)          (* parser token; op id, flag or attribute *)
| Sym (name : list Z)         (* SYMBOL_NAME *)
| Var (name : list Z)         (* VAR_NAME *)
| Str (bs : list Z)           (* CONSTANT, a string *)
| Chr (c : Z)                 (* CONSTANT, a byte *)
| Num (k : K).                (* CONSTANT, a number *)
Arguments Tok {K} t o.
Arguments Sym {K} name.
Arguments Var {K} name.
Arguments Str {K} bs.
Arguments Chr {K} c.
Arguments Num {K} k.

(** spvm_toke.c:2931-2940 and 3079-3088. *)
Definition is_white_space (c : Z) : bool := (c =? 32) || (c =? 13) || (c =? 10) || (c =? 9) || (c =? 12).
Definition isalpha_ascii (c : Z) : bool := ((97 <=? c) && (c <=? 122)) || ((65 <=? c) && (c <=? 90)).

Definition same (name : list Z) (k : string) : bool := if list_eq_dec Z.eq_dec name (bytes k) then true else false.

Definition kw (t o : string) : option (string * string) := Some (t, o).

(** The keywords, spvm_toke.c:2049-2543: the switch over the first character and
    the comparisons in it. __END__, __FILE__ and __LINE__ are in [symbol]. *)
Definition keyword (name : list Z) : option (string * string) :=
  match name with
  | [] => None
  | c :: _ =>
      if c =? 97 then (* a *)
        if same name "alias" then kw "ALIAS" "ALIAS" else
        if same name "allow" then kw "ALLOW" "ALLOW" else
        if same name "args_width" then kw "ARGS_WIDTH" "ARGS_WIDTH" else
        if same name "as" then kw "AS" "AS" else
        None
      else
      if c =? 98 then (* b *)
        if same name "basic_type_id" then kw "BASIC_TYPE_ID" "BASIC_TYPE_ID" else
        if same name "break" then kw "BREAK" "BREAK" else
        if same name "byte" then kw "BYTE" "BYTE" else
        None
      else
      if c =? 99 then (* c *)
        if same name "can" then kw "CAN" "CAN" else
        if same name "case" then kw "CASE" "CASE" else
        if same name "cmp" then kw "STRING_CMP" "STRING_COMPARISON_CMP" else
        if same name "class" then kw "CLASS" "CLASS" else
        if same name "compile_type_name" then kw "COMPILE_TYPE_NAME" "COMPILE_TYPE_NAME" else
        if same name "copy" then kw "COPY" "COPY" else
        None
      else
      if c =? 100 then (* d *)
        if same name "default" then kw "DEFAULT" "DEFAULT" else
        if same name "die" then kw "DIE" "DIE" else
        if same name "div_uint" then kw "DIVIDE_UNSIGNED_INT" "DIVIDE_UNSIGNED_INT" else
        if same name "div_ulong" then kw "DIVIDE_UNSIGNED_LONG" "DIVIDE_UNSIGNED_LONG" else
        if same name "double" then kw "DOUBLE" "DOUBLE" else
        if same name "dump" then kw "DUMP" "DUMP" else
        None
      else
      if c =? 101 then (* e *)
        if same name "elsif" then kw "ELSIF" "ELSIF" else
        if same name "else" then kw "ELSE" "ELSE" else
        if same name "enum" then kw "ENUM" "ENUM" else
        if same name "eq" then kw "STREQ" "STRING_COMPARISON_EQ" else
        if same name "eval" then kw "EVAL" "EVAL" else
        if same name "eval_error_id" then kw "EVAL_ERROR_ID" "EVAL_ERROR_ID" else
        if same name "extends" then kw "EXTENDS" "EXTENDS" else
        None
      else
      if c =? 102 then (* f *)
        if same name "for" then kw "FOR" "FOR" else
        if same name "float" then kw "FLOAT" "FLOAT" else
        if same name "false" then kw "FALSE" "FALSE" else
        None
      else
      if c =? 103 then (* g *)
        if same name "gt" then kw "STRGT" "STRING_COMPARISON_GT" else
        if same name "ge" then kw "STRGE" "STRING_COMPARISON_GE" else
        None
      else
      if c =? 104 then (* h *)
        if same name "has" then kw "HAS" "FIELD" else
        None
      else
      if c =? 105 then (* i *)
        if same name "if" then kw "IF" "IF" else
        if same name "interface" then kw "INTERFACE" "INTERFACE" else
        if same name "int" then kw "INT" "INT" else
        if same name "interface_t" then kw "ATTRIBUTE" "INTERFACE_T" else
        if same name "isa" then kw "ISA" "ISA" else
        if same name "isa_error" then kw "ISA_ERROR" "ISA_ERROR" else
        if same name "isweak" then kw "ISWEAK" "ISWEAK" else
        if same name "is_compile_type" then kw "IS_COMPILE_TYPE" "IS_COMPILE_TYPE" else
        if same name "is_type" then kw "IS_TYPE" "IS_TYPE" else
        if same name "is_error" then kw "IS_ERROR" "IS_ERROR" else
        if same name "is_read_only" then kw "IS_READ_ONLY" "IS_READ_ONLY" else
        None
      else
      if c =? 108 then (* l *)
        if same name "last" then kw "LAST" "LAST" else
        if same name "length" then kw "STRING_LENGTH" "STRING_LENGTH" else
        if same name "lt" then kw "STRLT" "STRING_COMPARISON_LT" else
        if same name "le" then kw "STRLE" "STRING_COMPARISON_LE" else
        if same name "long" then kw "LONG" "LONG" else
        None
      else
      if c =? 109 then (* m *)
        if same name "make_read_only" then kw "MAKE_READ_ONLY" "MAKE_READ_ONLY" else
        if same name "method" then kw "METHOD" "METHOD" else
        if same name "mod_uint" then kw "MODULO_UNSIGNED_INT" "MODULO_UNSIGNED_INT" else
        if same name "mod_ulong" then kw "MODULO_UNSIGNED_LONG" "MODULO_UNSIGNED_LONG" else
        if same name "mulnum_t" then kw "ATTRIBUTE" "MULNUM_T" else
        if same name "mutable" then kw "MUTABLE" "MUTABLE" else
        if same name "my" then kw "MY" "VAR_DECL" else
        None
      else
      if c =? 110 then (* n *)
        if same name "native" then kw "ATTRIBUTE" "NATIVE" else
        if same name "ne" then kw "STRNE" "STRING_COMPARISON_NE" else
        if same name "next" then kw "NEXT" "NEXT" else
        if same name "new" then kw "NEW" "NEW" else
        if same name "new_string_len" then kw "NEW_STRING_LEN" "NEW_STRING_LEN" else
        None
      else
      if c =? 111 then (* o *)
        if same name "of" then kw "OF" "OF" else
        if same name "our" then kw "OUR" "CLASS_VAR" else
        if same name "object" then kw "OBJECT" "OBJECT" else
        None
      else
      if c =? 112 then (* p *)
        if same name "print" then kw "PRINT" "PRINT" else
        if same name "private" then kw "ATTRIBUTE" "PRIVATE" else
        if same name "protected" then kw "ATTRIBUTE" "PROTECTED" else
        if same name "public" then kw "ATTRIBUTE" "PUBLIC" else
        if same name "precompile" then kw "ATTRIBUTE" "PRECOMPILE" else
        if same name "pointer" then kw "ATTRIBUTE" "POINTER" else
        None
      else
      if c =? 114 then (* r *)
        if same name "return" then kw "RETURN" "RETURN" else
        if same name "require" then kw "REQUIRE" "REQUIRE" else
        if same name "required" then kw "ATTRIBUTE" "REQUIRED" else
        if same name "rw" then kw "ATTRIBUTE" "RW" else
        if same name "ro" then kw "ATTRIBUTE" "RO" else
        None
      else
      if c =? 115 then (* s *)
        if same name "say" then kw "SAY" "SAY" else
        if same name "static" then kw "ATTRIBUTE" "STATIC" else
        if same name "switch" then kw "SWITCH" "SWITCH" else
        if same name "string" then kw "STRING" "STRING" else
        if same name "short" then kw "SHORT" "SHORT" else
        if same name "scalar" then kw "SCALAR" "SCALAR" else
        None
      else
      if c =? 116 then (* t *)
        if same name "true" then kw "TRUE" "TRUE" else
        if same name "type_name" then kw "TYPE_NAME" "TYPE_NAME" else
        None
      else
      if c =? 117 then (* u *)
        if same name "undef" then kw "UNDEF" "UNDEF" else
        if same name "unless" then kw "UNLESS" "UNLESS" else
        if same name "unweaken" then kw "UNWEAKEN" "UNLESS" else
        if same name "use" then kw "USE" "USE" else
        None
      else
      if c =? 118 then (* v *)
        if same name "version" then kw "VERSION_DECL" "VERSION_DECL" else
        if same name "void" then kw "VOID" "VOID" else
        None
      else
      if c =? 119 then (* w *)
        if same name "warn" then kw "WARN" "WARN" else
        if same name "while" then kw "WHILE" "WHILE" else
        if same name "weaken" then kw "WEAKEN" "WEAKEN" else
        if same name "wo" then kw "ATTRIBUTE" "WO" else
        None
      else
      if c =? 73 then (* I *)
        if same name "INIT" then kw "INIT" "INIT" else
        None
      else
      if c =? 95 then (* _ *)
        if same name "__PACKAGE__" then kw "OUTMOST_CLASS_NAME" "OUTMOST_CLASS_NAME" else
        None
      else
      None
  end.

(** ** Operators

    spvm_toke.c:168-390, 631-652, 656-896 and 1400-1405, without the numbers
    behind "-", POD and here documents. [p] points behind the character [c]. *)
Notation optok := (string * string)%type.
Definition got (t o : string) (p : list Z) : outcome (optok * list Z) := Ret ((t, o), p).
Definition assign_or (flag : string) (t o : string) (p : list Z) : outcome (optok * list Z) :=
  let! c := deref p in
  if c =? 61 then got "SPECIAL_ASSIGN" flag (next p) else got t o p.

Definition op_plus (p : list Z) : outcome (optok * list Z) :=
  let! c := deref p in
  if c =? 43 then got "INC" "DO_NOTHING" (next p) else assign_or "ADD" "+" "DO_NOTHING" p.

(** The digit is tested before, in [turn]. *)
Definition op_minus (p : list Z) : outcome (optok * list Z) :=
  let! c := deref p in
  if c =? 62 then got "ARROW" "DO_NOTHING" (next p)
  else if c =? 45 then got "DEC" "DO_NOTHING" (next p)
  else assign_or "SUBTRACT" "-" "DO_NOTHING" p.

Definition op_or (p : list Z) : outcome (optok * list Z) :=
  let! c := deref p in
  if c =? 124 then got "LOGICAL_OR" "LOGICAL_OR" (next p) else assign_or "BIT_OR" "BIT_OR" "BIT_OR" p.

Definition op_and (p : list Z) : outcome (optok * list Z) :=
  let! c := deref p in
  if c =? 38 then got "LOGICAL_AND" "LOGICAL_AND" (next p)
  else if c =? 61 then got "SPECIAL_ASSIGN" "BIT_AND" (next p)
  else if isalpha_ascii c || (c =? 95) then got "OUTMOST_CLASS" "OUTMOST_CLASS" p
  else got "BIT_AND" "BIT_AND" p.

Definition op_equal (p : list Z) : outcome (optok * list Z) :=
  let! c := deref p in
  if c =? 61 then got "NUMEQ" "NUMERIC_COMPARISON_EQ" (next p)
  else if c =? 62 then got "," "DO_NOTHING" (next p)
  else got "ASSIGN" "ASSIGN" p.

(** The last case moves the pointer once more (808 and 867). *)
Definition op_less (p : list Z) : outcome (optok * list Z) :=
  let! c := deref p in
  if c =? 60 then assign_or "LEFT_SHIFT" "SHIFT" "LEFT_SHIFT" (next p)
  else if c =? 61 then
    let! c := deref (next p) in
    if c =? 62 then got "NUMERIC_CMP" "NUMERIC_COMPARISON_CMP" (next (next p))
    else got "NUMLE" "NUMERIC_COMPARISON_LE" (next p)
  else got "NUMLT" "NUMERIC_COMPARISON_LT" (next p).

Definition op_greater (p : list Z) : outcome (optok * list Z) :=
  let! c := deref p in
  if c =? 62 then
    let! c := deref (next p) in
    if c =? 62 then assign_or "RIGHT_LOGICAL_SHIFT" "SHIFT" "RIGHT_LOGICAL_SHIFT" (next (next p))
    else assign_or "RIGHT_ARITHMETIC_SHIFT" "SHIFT" "RIGHT_ARITHMETIC_SHIFT" (next p)
  else if c =? 61 then got "NUMGE" "NUMERIC_COMPARISON_GE" (next p)
  else got "NUMGT" "NUMERIC_COMPARISON_GT" (next p).

Definition op_not (p : list Z) : outcome (optok * list Z) :=
  let! c := deref p in
  if c =? 61 then got "NUMNE" "NUMERIC_COMPARISON_NE" (next p) else got "LOGICAL_NOT" "LOGICAL_NOT" p.

(** The characters that are tokens themselves, 1520-1541. *)
Definition single_char (c : Z) : bool := existsb (Z.eqb c) (bytes "()[]{},:;@").
Definition char_name (c : Z) : string := String (Ascii.ascii_of_nat (Z.to_nat c)) EmptyString.

Definition operator (c : Z) (p : list Z) : option (outcome (optok * list Z)) :=
  if c =? 46 then Some (assign_or "STRING_CONCAT" "." "STRING_CONCAT" p)
  else if c =? 43 then Some (op_plus p)
  else if c =? 45 then Some (op_minus p)
  else if c =? 42 then Some (assign_or "MULTIPLY" "*" "DO_NOTHING" p)
  else if c =? 47 then Some (assign_or "DIVIDE" "DIVIDE" "DIVIDE" p)
  else if c =? 37 then Some (assign_or "MODULO" "MODULO" "MODULO" p)
  else if c =? 94 then Some (assign_or "BIT_XOR" "BIT_XOR" "BIT_XOR" p)
  else if c =? 124 then Some (op_or p)
  else if c =? 38 then Some (op_and p)
  else if c =? 61 then Some (op_equal p)
  else if c =? 60 then Some (op_less p)
  else if c =? 62 then Some (op_greater p)
  else if c =? 33 then Some (op_not p)
  else if c =? 126 then Some (got "BIT_NOT" "BIT_NOT" p)
  else if c =? 92 then Some (got "REFERENCE" "REFERENCE" p)
  else if single_char c then Some (got (char_name c) "DO_NOTHING" p)
  else None.

(** ** Names *)

(** The loops 1437-1449 and 2006-2016: the name and the pointer behind it. *)
Fixpoint name_end (p : list Z) : outcome (list Z * list Z) :=
  match p with
  | [] => UB
  | c :: q =>
      if isalnum_ascii c || (c =? 95) then let! (n, r) := name_end q in Ret (c :: n, r)
      else if c =? 58 then
        match q with
        | [] => UB
        | d :: q => if d =? 58 then let! (n, r) := name_end q in Ret (c :: d :: n, r) else Ret ([], p)
        end
      else Ret ([], p)
  end.

Definition contains (s : list Z) (k : string) : bool := strstr s (bytes k).

(** spvm_toke.c:1426-1517. [p] points behind the dollar. *)
Definition variable (p : list Z) : outcome (list Z * list Z) :=
  let! c := deref p in
  let have_brace := c =? 123 in
  let! (n, p) := name_end (if have_brace then next p else p) in
  let! p :=
    if have_brace then
      let! c := deref p in
      check! c =? 125 else "The variable name is not closed by }." in Ret (next p)
    else Ret p in
  check! negb (contains n "__") else "The variable name cannnot contain __." in
  check! negb (is_prefix (bytes "::") n) else "The variable name cannnot begin with $::." in
  check! negb (is_prefix (bytes "::") (rev n)) else "The variable name cannnot end with ::." in
  check! negb (contains n "::::") else "The variable name cannnot contain ::::." in
  check! negb (match n with c :: _ => isdigit_ascii c | [] => false end)
    else "The symbol name part of the variable name cannnot begin with a number." in
  Ret (36 :: n, p).

(** ** Comments and POD *)

(** To the end of the line, 571-585: the pointer behind the line terminator, if
    there is one, or at the NUL. *)
Fixpoint comment (p : list Z) : outcome (list Z * bool) :=
  match p with
  | [] => UB
  | c :: q => if c =? 10 then Ret (q, true) else if c =? 0 then Ret (p, false) else comment q
  end.

(** To a line terminator or the NUL, 620-625. *)
Fixpoint line_rest (p : list Z) : outcome (list Z) :=
  match p with
  | [] => UB
  | c :: q => if (c =? 10) || (c =? 0) then Ret p else line_rest q
  end.

(** 601-628: the pointer behind the POD and the number of lines. [p] points at
    the character before the next to be looked at. *)
Fixpoint pod (p : list Z) (lines : Z) : outcome (list Z * Z) :=
  match p with
  | [] => UB
  | _ :: q =>
      let! c := deref q in
      let lines := if c =? 10 then lines + 1 else lines in
      if c =? 0 then Ret (q, lines)
      else if (c =? 61) && is_prefix (bytes "cut") (next q) then
        let! e := deref (zdrop 4 q) in
        if (e =? 0) || is_white_space e then let! r := line_rest (zdrop 4 q) in Ret (r, lines)
        else pod q lines
      else pod q lines
  end.

(** ** Directives *)

(** 4 is the length of the word, of which the pointer is at the first letter; the
    spaces behind are skipped. *)
Definition skip_spaces (p : list Z) : outcome (list Z) :=
  let! (_, p) := while_ (Z.eqb 32) p in Ret p.

(** A path in quotes, 460-490 and 520-558: at the first letter of "file " or
    "lib ". The pointer behind the line terminator, and the path. The loop ends
    at a quote or a line terminator only. *)
Fixpoint path (p : list Z) : outcome (list Z * list Z) :=
  match p with
  | [] => UB
  | c :: q =>
      if c =? 34 then Ret ([], q)
      else if c =? 10 then Die "A file or directory in a directive must end with a double quote."
      else let! (f, r) := path q in Ret (c :: f, r)
  end.
Definition path_directive (p : list Z) : outcome (list Z * list Z) :=
  let! p := skip_spaces p in
  let! c := deref p in
  check! c =? 34 else "A file or lib directive must start with a double quote." in
  let! (f, p) := path (next p) in
  let! p := skip_spaces p in
  let! c := deref p in
  check! c =? 10 else "A file or lib directive must end with \n." in
  check! negb (zlen f =? 0) else "A file or lib directive must have a path." in
  Ret (f, next p).

(** The line directive, 409-446. *)
Definition line_directive (p : list Z) : outcome (Z * list Z) :=
  let! b := skip_spaces p in
  let! (_, p) := while_ (fun c => isdigit_ascii c || (c =? 45)) b in
  let! p := skip_spaces p in
  let! c := deref p in
  check! c =? 10 else "A line directive must end with \n." in
  check! negb (Nat.eqb (length b) (length p)) else "A line directive must have a line number." in
  let '(n, _, erange) := strtoll 10 b in
  check! (1 <=? n) && (n <=? INT32_MAX) && negb erange
    else "The line number given to a line directive must be a positive 32bit integer." in
  Ret (n, next p).

(** ** Here documents, 670-786 *)

(** The loop 719-749: the bytes, the pointer behind the last line and the number
    of lines. [start]: the pointer is at the beginning of a line. *)
Fixpoint heredoc (name : list Z) (start : bool) (p : list Z) : outcome (list Z * list Z * Z) :=
  match p with
  | [] => UB
  | c :: q =>
      let! last :=
        if start && is_prefix name p then let! e := deref (skipn (length name) p) in Ret (e =? 10)
        else Ret false in
      if last : bool then Ret ([], next (skipn (length name) p), 1)
      else if c =? 10 then let! (d, r, n) := heredoc name true q in Ret (c :: d, r, n + 1)
      else if c =? 0 then Die "A here document must end with its here document name + a line terminator."
      else let! (d, r, n) := heredoc name false q in Ret (c :: d, r, n)
  end.

(** [p] points behind <<'. *)
Definition here_document (p : list Z) : outcome (list Z * list Z * Z) :=
  let! (name, p) := while_ (fun c => isalnum_ascii c || (c =? 95)) p in
  check! negb (zlen name =? 0) else "The length of a here document name must be greater than or equal to 0." in
  check! negb (match name with c :: _ => isdigit_ascii c | [] => false end)
    else "A here document name cannot start with a number." in
  check! negb (contains name "__") else "A here document name cannot contain __." in
  check! is_prefix [39; 59; 10] p else "The first line of the here document must end with ';." in
  let! (d, r, n) := heredoc name true (skipn 3 p) in
  Ret (d, r, n + 1).

(** ** The state *)
Inductive vstate := V_none | V_first_concat | V_var | V_second_concat | V_next_literal.

Record lexer := Lexer {
  ch_ptr : list Z;
  current_line : Z;
  current_file : list Z;
  line_begin : list Z;                       (* line_begin_ch_ptr *)
  after_shebang : option (list Z);           (* line_begin_after_shebang_line_ch_ptr *)
  next_literal : option (list Z);            (* next_string_literal_ch_ptr *)
  before_arrow : bool;                       (* before_token_is_arrow *)
  was_heredoc : bool;                        (* previous_token_is_heredoc *)
  want_method : bool;                        (* expect_method_name *)
  want_field : bool;                         (* expect_field_name *)
  expansion_state : vstate
}.

Definition at_ptr (q : list Z) (p : list Z) : bool := Nat.eqb (length q) (length p).
Definition at_opt (q : option (list Z)) (p : list Z) : bool := match q with Some q => at_ptr q p | None => false end.
Definition newlines (l : list Z) : Z := zlen (filter (Z.eqb 10) l).

(** The end of a call that leaves no flag. *)
Definition go (s : lexer) (p : list Z) : lexer :=
  Lexer p (current_line s) (current_file s) (line_begin s) (after_shebang s) (next_literal s) false false false false V_none.
(** SPVM_TOKE_increment_current_line, 3160-3164, [n] times; the line begins at [b]. *)
Definition ticks (n : Z) (b : list Z) (s : lexer) : lexer :=
  Lexer (ch_ptr s) (current_line s + n) (current_file s) (if n =? 0 then line_begin s else b)
    (after_shebang s) (next_literal s) (before_arrow s) (was_heredoc s) (want_method s) (want_field s) (expansion_state s).
Definition with_flags (s : lexer) (arrow hd meth fld : bool) (v : vstate) : lexer :=
  Lexer (ch_ptr s) (current_line s) (current_file s) (line_begin s) (after_shebang s) (next_literal s) arrow hd meth fld v.
Definition with_next (s : lexer) (n : option (list Z)) : lexer :=
  Lexer (ch_ptr s) (current_line s) (current_file s) (line_begin s) (after_shebang s) n
    (before_arrow s) (was_heredoc s) (want_method s) (want_field s) (expansion_state s).
Definition set_line (s : lexer) (n : Z) : lexer :=
  Lexer (ch_ptr s) n (current_file s) (ch_ptr s) (after_shebang s) (next_literal s)
    (before_arrow s) (was_heredoc s) (want_method s) (want_field s) (expansion_state s).
Definition set_file (s : lexer) (f : list Z) : lexer :=
  Lexer (ch_ptr s) (current_line s) f (ch_ptr s) (after_shebang s) (next_literal s)
    (before_arrow s) (was_heredoc s) (want_method s) (want_field s) (expansion_state s).
Definition set_shebang (s : lexer) : lexer :=
  Lexer (ch_ptr s) (current_line s) (current_file s) (line_begin s) (Some (ch_ptr s)) (next_literal s)
    (before_arrow s) (was_heredoc s) (want_method s) (want_field s) (expansion_state s).

Section Source.
  (** The numbers, as in Toke_model.v, and the source with its NUL. *)
  Variables F D : Type.
  Variable strtof : list Z -> F * Z.
  Variable strtod : list Z -> D * Z.
  Variable fneg : F -> F.
  Variable dneg : D -> D.
  Variable src : list Z.                     (* current_class_content *)
  Local Notation token := (token (constant F D)).
  Local Notation tok p := (Tok (K := constant F D) (fst p) (snd p)).

  Inductive turned :=
  | Again (minus : bool) (s : lexer)         (* continue *)
  | Got (t : token) (s : lexer).             (* return *)

  (** "#", 391-593. [s] is at the "#". *)
  Definition hash (s : lexer) : outcome turned :=
    let is_content_begin := at_ptr src (ch_ptr s) in
    let is_after_shebang := at_opt (after_shebang s) (ch_ptr s) in
    let is_line_begin := at_ptr (line_begin s) (ch_ptr s) in
    let p := next (ch_ptr s) in
    if is_prefix (bytes "line ") p then
      check! is_line_begin else "A line directive must begin from the beggining of the line." in
      let! (n, p) := line_directive (skipn 4 p) in
      Ret (Again false (set_line (go s p) n))
    else if is_prefix (bytes "file ") p then
      check! is_content_begin || is_after_shebang else "A file directive must begin from the beggining of the source code excluding a shebang line." in
      let! (f, p) := path_directive (skipn 4 p) in
      Ret (Again false (set_file (go s p) f))
    else if is_prefix (bytes "lib ") p then
      check! is_line_begin else "A lib directive must begin from the beggining of the line." in
      let! (_, p) := path_directive (skipn 3 p) in
      Ret (Again false (set_file (go s p) (current_file s)))
    else
      let shebang := is_content_begin && is_prefix (bytes "!") p in
      let! (p, ended) := comment p in
      let s := if ended : bool then ticks 1 p (go s p) else go s p in
      Ret (Again false (if shebang then set_shebang s else s)).

  (** POD or an operator, 595-655. *)
  Definition is_pod (p : list Z) : outcome bool :=
    if at_ptr src p || (nth (length src - length p - 1) src 0 =? 10) then
      let! c := deref (next p) in Ret (isalpha_ascii c)
    else Ret false.

  (** A symbol name, 1996-2590. [f] are the flags of the last call. *)
  Definition fat_comma (p : list Z) : outcome bool :=
    let! (_, p) := while_ is_white_space p in
    let! c := deref p in
    if c =? 61 then let! c := deref (next p) in Ret (c =? 62) else Ret false.

  Definition symbol (f s : lexer) : outcome turned :=
    let! c := deref (ch_ptr s) in
    let! (n, p) := name_end (next (ch_ptr s)) in
    let name := c :: n in
    let! fat := fat_comma p in
    let not_keyword :=
      check! negb (contains name "__") else "The symbol name cannnot constain __." in
      check! negb (contains name "::::") else "The symbol name cannnot contains ::::." in
      if fat : bool then
        check! negb (contains name "::") else "The string literal of the left operand of the fat camma cannnot contains ::." in
        Ret (Got (Str name) (go s p))
      else Ret (Got (Sym name) (go s p)) in
    if fat || want_method f || want_field f then not_keyword
    else if same name "__END__" then Ret (Got (Tok "END_OF_FILE" "END_OF_FILE") (go s (skipn (length src - 1) src)))
    else if same name "__FILE__" then Ret (Got (Str (current_file s)) (go s p))
    else if same name "__LINE__" then Ret (Got (Num (CInt (current_line s))) (go s p))
    else
      match keyword name with
      | Some k =>
          Ret (Got (tok k)
            (if same name "scalar" then go s (next p)
             else with_flags (go s p) false false (same name "method") (same name "has") V_none))
      | None => not_keyword
      end.

  (** A double-quoted literal, 975-1399, of which Toke_model.v has the contents.
      Line terminators in it are counted; the next line "begins" behind it. *)
  Definition quoted (s : lexer) (p : list Z) : outcome turned :=
    let! (bs, q, expansion) := string_literal (S (length p)) p in
    let s' := ticks (newlines (between p q)) (match expansion with Some _ => next q | None => q end) (go s q) in
    match expansion with
    | None => Ret (Got (Str bs) s')
    | Some n => Ret (Got (Str bs) (with_flags (with_next s' (Some n)) false false false false V_first_concat))
    end.

  (** One turn of the loop, 72-2603; [f] are the flags of the last call (36-70),
      [v] and [minus] the local variables. *)
  Definition turn (f : lexer) (v : vstate) (minus : bool) (s : lexer) : outcome (turned * vstate) :=
    if Nat.leb (length (ch_ptr s)) 1 then Ret (Got (Tok "END_OF_FILE" "END_OF_FILE") (go s (ch_ptr s)), v)
    else
      (* 107-110 *)
      let at_next := at_opt (next_literal s) (ch_ptr s) in
      let s := if at_next then with_next s None else s in
      let v := if at_next then V_second_concat else v in
      let! r :=
        match v with
        | V_first_concat => Ret (Got (Tok "." "STRING_CONCAT") (with_flags (go s (ch_ptr s)) false false false false V_var))
        | V_second_concat => Ret (Got (Tok "." "STRING_CONCAT") (with_flags (go s (ch_ptr s)) false false false false V_next_literal))
        | V_next_literal => quoted s (ch_ptr s)
        | V_none | V_var =>
            if (match v with V_var => false | _ => true end) && was_heredoc f then Ret (Got (Tok ";" "DO_NOTHING") (go s (ch_ptr s)))
            else
              let! c := deref (ch_ptr s) in
              let p := next (ch_ptr s) in
              if (c =? 32) || (c =? 9) || (c =? 12) then Ret (Again minus (go s p))
              else if c =? 10 then Ret (Again minus (ticks 1 p (go s p)))
              else if c =? 35 then hash s
              else if c =? 39 then
                let! (b, q) := character_literal p in Ret (Got (Chr b) (go s q))
              else if c =? 34 then quoted s p
              else if c =? 36 then
                let! c1 := deref p in
                if c1 =? 36 then Ret (Got (Tok "DEREFERENCE" "DEREFERENCE") (go s p))
                else if c1 =? 64 then Ret (Got (Tok "EXCEPTION_VAR" "EXCEPTION_VAR") (go s (next p)))
                else if is_prefix (bytes "{@}") p then Ret (Got (Tok "EXCEPTION_VAR" "EXCEPTION_VAR") (go s (skipn 3 p)))
                else let! (n, q) := variable p in Ret (Got (Var n) (go s q))
              else
                let! c1 := deref p in
                let! is_pod := if c =? 61 then is_pod (ch_ptr s) else Ret false in
                if (c =? 45) && isdigit_ascii c1 then Ret (Again true (go s p))
                else if is_pod : bool then
                  let! (q, n) := pod p 0 in
                  Ret (Again minus (Lexer q (current_line s + n) (current_file s) (line_begin s) (after_shebang s) (next_literal s) false false false false V_none))
                else if (c =? 60) && is_prefix [60; 39] p then
                  let! (d, q, n) := here_document (skipn 2 p) in
                  Ret (Got (Str d) (with_flags (ticks n q (go s q)) false true false false V_none))
                else
                  match operator c p with
                  | Some o =>
                      let! (t, q) := o in
                      Ret (Got (tok t)
                        (with_flags (go s q) (String.eqb (fst t) "ARROW") false
                           (String.eqb (fst t) "ARROW" || String.eqb (fst t) "OUTMOST_CLASS")
                           (before_arrow f && (c =? 123)) V_none))
                  | None =>
                      if (c =? 113) && (c1 =? 39) then
                        let! (bs, q) := single_quoted (S (length p)) (next p) in
                        Ret (Got (Str bs) (ticks (newlines (between p q)) q (go s q)))
                      else if isdigit_ascii c then
                        let! (k, q) := numeric_literal F D strtof strtod fneg dneg minus (ch_ptr s) in
                        Ret (Got (Num k) (go s q))
                      else if isalpha_ascii c || (c =? 95) then symbol f s
                      else Die "Use of the character code is not allowed in source code."
                  end
        end in
      Ret (r, v).

  Fixpoint turns (fuel : nat) (f : lexer) (v : vstate) (minus : bool) (s : lexer) : outcome (token * lexer) :=
    match fuel with
    | O => Fuel
    | S fuel =>
        let! (r, v) := turn f v minus s in
        match r with
        | Again minus s => turns fuel f v minus s
        | Got t s => Ret (t, s)
        end
    end.

  (** SPVM_yylex, 34-2604. *)
  Definition yylex (fuel : nat) (s : lexer) : outcome (token * lexer) :=
    turns fuel s (expansion_state s) false (go s (ch_ptr s)).

  (** The tokens of the file with the line and file their nodes get. *)
  Fixpoint tokens (n fuel : nat) (s : lexer) : outcome (list (token * Z * list Z)) :=
    match n with
    | O => Fuel
    | S n =>
        let! (t, s) := yylex fuel s in
        let here := (t, current_line s, current_file s) in
        match t with
        | Tok "END_OF_FILE" _ => Ret [here]
        | _ => let! l := tokens n fuel s in Ret (here :: l)
        end
    end.

  (** 2891-2895. *)
  Definition start (file : list Z) : lexer := Lexer src 1 file src None None false false false false V_none.
End Source.
