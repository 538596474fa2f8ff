(** * Tokens (lib/SPVM/Document/Language/Tokenization.pm)

    What a source text means: layout between tokens, the tokens, and the line
    and file each of them belongs to. Only the type of tokens is taken from the
    model; the grammars of the literals are those of Toke_spec.v. *)
From Verif Require Import Base CLib FnNum_spec Toke_spec.
From Verif Require Import Toke_model Lex_model.

(** ** Positions *)

(** Where a position is: at the beginning of the source, behind a first line that
    begins with "#!", at the beginning of another line, or inside a line. *)
Inductive place := Begin | After_shebang | Line_start | Inside.

Record pos := Pos { at_place : place; at_line : Z; at_file : list Z; text : list Z }.

(** ** Layout *)

Definition blank (c : Z) : Prop := c = 32 \/ c = 9 \/ c = 12.
Definition letter (c : Z) : Prop := 97 <= c <= 122 \/ 65 <= c <= 90.
Definition space (c : Z) : Prop := c = 32 \/ c = 13 \/ c = 10 \/ c = 9 \/ c = 12.
(** A line without its end. *)
Definition one_line (u : list Z) : Prop := Forall (fun c => c <> 10 /\ c <> 0) u.
Definition begins (k : string) (u : list Z) : Prop := exists r, u = bytes k ++ r.
Definition is_directive (u : list Z) : Prop := begins "line " u \/ begins "file " u \/ begins "lib " u.
Definition count_lines (u : list Z) : Z := zlen (filter (Z.eqb 10) u).

(** "=cut", with a space character or the end of the source behind it. *)
Definition cut (s : list Z) : Prop := exists r, s = bytes "=cut" ++ r /\ (r = [] \/ starts space r).
(** [b], followed by [s], contains no end of a POD. *)
Definition no_cut (b s : list Z) : Prop := forall x y, b = x ++ y -> y <> [] -> ~ cut (y ++ s).

(** A path in quotes: [s] is what is behind the keyword. *)
Inductive quoted_path : list Z -> list Z -> list Z -> Prop :=
| Quoted : forall m n f r, f <> [] -> Forall (fun c => c <> 34 /\ c <> 10) f ->
    quoted_path (repeat 32 (S m) ++ 34 :: f ++ 34 :: repeat 32 n ++ 10 :: r) f r.

(** One piece of layout. In two places this is what the code does and not what is
    documented: the line of a file or a lib directive is not counted, and "=cut"
    ends a POD anywhere in a line. *)
Inductive skip : pos -> pos -> Prop :=
| Skip_blank : forall pl l f c s, blank c -> skip (Pos pl l f (c :: s)) (Pos Inside l f s)
| Skip_line : forall pl l f s, skip (Pos pl l f (10 :: s)) (Pos Line_start (l + 1) f s)
| Skip_comment : forall pl l f u s, one_line u -> ~ is_directive u -> ~ (pl = Begin /\ begins "!" u) ->
    skip (Pos pl l f (35 :: u ++ 10 :: s)) (Pos Line_start (l + 1) f s)
| Skip_shebang : forall l f u s, one_line u -> begins "!" u ->
    skip (Pos Begin l f (35 :: u ++ 10 :: s)) (Pos After_shebang (l + 1) f s)
| Skip_last_comment : forall pl l f u, one_line u -> ~ is_directive u -> skip (Pos pl l f (35 :: u)) (Pos Inside l f [])
| Skip_line_directive : forall pl l f m ds n k s, pl <> Inside -> number 10 ds n -> 1 <= n <= INT32_MAX ->
    skip (Pos pl l f (35 :: bytes "line" ++ repeat 32 (S m) ++ ds ++ repeat 32 k ++ 10 :: s)) (Pos Line_start n f s)
| Skip_file_directive : forall pl l f f' q s, pl = Begin \/ pl = After_shebang -> quoted_path q f' s ->
    skip (Pos pl l f (35 :: bytes "file" ++ q)) (Pos Line_start l f' s)
| Skip_lib_directive : forall pl l f d q s, pl <> Inside -> quoted_path q d s ->
    skip (Pos pl l f (35 :: bytes "lib" ++ q)) (Pos Line_start l f s)
| Skip_pod : forall pl l f a b u s, pl <> Inside -> letter a -> ~ In 0 b -> no_cut b (bytes "=cut" ++ u ++ s) ->
    one_line u -> cut (bytes "=cut" ++ u ++ s) -> s = [] \/ starts (eq 10) s ->
    skip (Pos pl l f (61 :: a :: b ++ bytes "=cut" ++ u ++ s)) (Pos Inside (l + count_lines b) f s)
| Skip_last_pod : forall pl l f a b, pl <> Inside -> letter a -> ~ In 0 b -> no_cut b [] ->
    skip (Pos pl l f (61 :: a :: b)) (Pos Inside (l + count_lines b) f []).

Inductive skips : pos -> pos -> Prop :=
| Skips_nil : forall p, skips p p
| Skips_cons : forall p q r, skip p q -> skips q r -> skips p r.

(** ** Names *)
Definition lacks (k : string) (n : list Z) : Prop := forall a b, n <> a ++ bytes k ++ b.
Definition symbol_name (n : list Z) : Prop :=
  n <> [] /\ var_name n /\ lacks "__" n /\ lacks "::::" n /\ ~ begins "::" n /\ (forall a, n <> a ++ bytes "::") /\
  ~ starts (fun c => 48 <= c <= 57) n.
(** The name does not go on in what follows. *)
Definition name_stops (rest : list Z) : Prop := ~ starts word rest /\ ~ begins "::" rest.
(** A fat comma follows. *)
Definition fat (rest : list Z) : Prop := exists w r, rest = w ++ bytes "=>" ++ r /\ Forall space w.

(** ** Operators *)
Notation tk t o := (t%string, o%string) (only parsing).
Definition operators : list (string * (string * string)) :=
  [ ("!", tk "LOGICAL_NOT" "LOGICAL_NOT"); ("!=", tk "NUMNE" "NUMERIC_COMPARISON_NE");
    ("%", tk "MODULO" "MODULO"); ("%=", tk "SPECIAL_ASSIGN" "MODULO");
    ("&", tk "BIT_AND" "BIT_AND"); ("&&", tk "LOGICAL_AND" "LOGICAL_AND"); ("&=", tk "SPECIAL_ASSIGN" "BIT_AND");
    ("=", tk "ASSIGN" "ASSIGN"); ("==", tk "NUMEQ" "NUMERIC_COMPARISON_EQ"); ("=>", tk "," "DO_NOTHING");
    ("^", tk "BIT_XOR" "BIT_XOR"); ("^=", tk "SPECIAL_ASSIGN" "BIT_XOR");
    ("|", tk "BIT_OR" "BIT_OR"); ("||", tk "LOGICAL_OR" "LOGICAL_OR"); ("|=", tk "SPECIAL_ASSIGN" "BIT_OR");
    ("-", tk "-" "DO_NOTHING"); ("--", tk "DEC" "DO_NOTHING"); ("-=", tk "SPECIAL_ASSIGN" "SUBTRACT");
    ("->", tk "ARROW" "DO_NOTHING");
    ("~", tk "BIT_NOT" "BIT_NOT"); ("@", tk "@" "DO_NOTHING");
    ("+", tk "+" "DO_NOTHING"); ("++", tk "INC" "DO_NOTHING"); ("+=", tk "SPECIAL_ASSIGN" "ADD");
    ("*", tk "*" "DO_NOTHING"); ("*=", tk "SPECIAL_ASSIGN" "MULTIPLY");
    ("<", tk "NUMLT" "NUMERIC_COMPARISON_LT"); ("<=", tk "NUMLE" "NUMERIC_COMPARISON_LE");
    (">", tk "NUMGT" "NUMERIC_COMPARISON_GT"); (">=", tk "NUMGE" "NUMERIC_COMPARISON_GE");
    ("<=>", tk "NUMERIC_CMP" "NUMERIC_COMPARISON_CMP");
    ("<<", tk "SHIFT" "LEFT_SHIFT"); ("<<=", tk "SPECIAL_ASSIGN" "LEFT_SHIFT");
    (">>", tk "SHIFT" "RIGHT_ARITHMETIC_SHIFT"); (">>=", tk "SPECIAL_ASSIGN" "RIGHT_ARITHMETIC_SHIFT");
    (">>>", tk "SHIFT" "RIGHT_LOGICAL_SHIFT"); (">>>=", tk "SPECIAL_ASSIGN" "RIGHT_LOGICAL_SHIFT");
    (".", tk "." "STRING_CONCAT"); (".=", tk "SPECIAL_ASSIGN" "STRING_CONCAT");
    ("/", tk "DIVIDE" "DIVIDE"); ("/=", tk "SPECIAL_ASSIGN" "DIVIDE"); ("\", tk "REFERENCE" "REFERENCE");
    ("(", tk "(" "DO_NOTHING"); (")", tk ")" "DO_NOTHING"); ("{", tk "{" "DO_NOTHING"); ("}", tk "}" "DO_NOTHING");
    ("[", tk "[" "DO_NOTHING"); ("]", tk "]" "DO_NOTHING"); (";", tk ";" "DO_NOTHING"); (":", tk ":" "DO_NOTHING");
    (",", tk "," "DO_NOTHING") ]%string.

(** [t] is the longest operator at the beginning of [t ++ rest], and it is not the
    beginning of something else: a number, &name, a POD, a here document. *)
Definition operator_here (pl : place) (t : string) (rest : list Z) : Prop :=
  (forall t' k, In (t', k) operators -> begins t' (bytes t ++ rest) -> (length (bytes t') <= length (bytes t))%nat) /\
  (t = "-"%string -> ~ starts (fun c => 48 <= c <= 57) rest) /\
  (t = "&"%string -> ~ starts (fun c => letter c \/ c = 95) rest) /\
  (t = "="%string -> ~ (pl <> Inside /\ starts letter rest)) /\
  (t = "<<"%string -> ~ starts (eq 39) rest).

(** ** Keywords, but for the last four *)
Definition keywords : list (string * (string * string)) :=
  [ ("alias", tk "ALIAS" "ALIAS"); ("allow", tk "ALLOW" "ALLOW");
    ("as", tk "AS" "AS"); ("basic_type_id", tk "BASIC_TYPE_ID" "BASIC_TYPE_ID");
    ("break", tk "BREAK" "BREAK"); ("byte", tk "BYTE" "BYTE");
    ("can", tk "CAN" "CAN"); ("case", tk "CASE" "CASE");
    ("cmp", tk "STRING_CMP" "STRING_COMPARISON_CMP"); ("class", tk "CLASS" "CLASS");
    ("compile_type_name", tk "COMPILE_TYPE_NAME" "COMPILE_TYPE_NAME"); ("copy", tk "COPY" "COPY");
    ("default", tk "DEFAULT" "DEFAULT"); ("die", tk "DIE" "DIE");
    ("div_uint", tk "DIVIDE_UNSIGNED_INT" "DIVIDE_UNSIGNED_INT"); ("div_ulong", tk "DIVIDE_UNSIGNED_LONG" "DIVIDE_UNSIGNED_LONG");
    ("double", tk "DOUBLE" "DOUBLE"); ("dump", tk "DUMP" "DUMP");
    ("elsif", tk "ELSIF" "ELSIF"); ("else", tk "ELSE" "ELSE");
    ("enum", tk "ENUM" "ENUM"); ("eq", tk "STREQ" "STRING_COMPARISON_EQ");
    ("eval", tk "EVAL" "EVAL"); ("eval_error_id", tk "EVAL_ERROR_ID" "EVAL_ERROR_ID");
    ("extends", tk "EXTENDS" "EXTENDS"); ("for", tk "FOR" "FOR");
    ("float", tk "FLOAT" "FLOAT"); ("false", tk "FALSE" "FALSE");
    ("gt", tk "STRGT" "STRING_COMPARISON_GT"); ("ge", tk "STRGE" "STRING_COMPARISON_GE");
    ("has", tk "HAS" "FIELD"); ("if", tk "IF" "IF");
    ("interface", tk "INTERFACE" "INTERFACE"); ("int", tk "INT" "INT");
    ("interface_t", tk "ATTRIBUTE" "INTERFACE_T"); ("isa", tk "ISA" "ISA");
    ("isa_error", tk "ISA_ERROR" "ISA_ERROR"); ("isweak", tk "ISWEAK" "ISWEAK");
    ("is_compile_type", tk "IS_COMPILE_TYPE" "IS_COMPILE_TYPE"); ("is_type", tk "IS_TYPE" "IS_TYPE");
    ("is_error", tk "IS_ERROR" "IS_ERROR"); ("is_read_only", tk "IS_READ_ONLY" "IS_READ_ONLY");
    ("args_width", tk "ARGS_WIDTH" "ARGS_WIDTH"); ("last", tk "LAST" "LAST");
    ("length", tk "STRING_LENGTH" "STRING_LENGTH"); ("lt", tk "STRLT" "STRING_COMPARISON_LT");
    ("le", tk "STRLE" "STRING_COMPARISON_LE"); ("long", tk "LONG" "LONG");
    ("make_read_only", tk "MAKE_READ_ONLY" "MAKE_READ_ONLY"); ("my", tk "MY" "VAR_DECL");
    ("mulnum_t", tk "ATTRIBUTE" "MULNUM_T"); ("method", tk "METHOD" "METHOD");
    ("mod_uint", tk "MODULO_UNSIGNED_INT" "MODULO_UNSIGNED_INT"); ("mod_ulong", tk "MODULO_UNSIGNED_LONG" "MODULO_UNSIGNED_LONG");
    ("mutable", tk "MUTABLE" "MUTABLE"); ("native", tk "ATTRIBUTE" "NATIVE");
    ("ne", tk "STRNE" "STRING_COMPARISON_NE"); ("next", tk "NEXT" "NEXT");
    ("new", tk "NEW" "NEW"); ("new_string_len", tk "NEW_STRING_LEN" "NEW_STRING_LEN");
    ("of", tk "OF" "OF"); ("our", tk "OUR" "CLASS_VAR");
    ("object", tk "OBJECT" "OBJECT"); ("print", tk "PRINT" "PRINT");
    ("private", tk "ATTRIBUTE" "PRIVATE"); ("protected", tk "ATTRIBUTE" "PROTECTED");
    ("public", tk "ATTRIBUTE" "PUBLIC"); ("precompile", tk "ATTRIBUTE" "PRECOMPILE");
    ("pointer", tk "ATTRIBUTE" "POINTER"); ("return", tk "RETURN" "RETURN");
    ("require", tk "REQUIRE" "REQUIRE"); ("required", tk "ATTRIBUTE" "REQUIRED");
    ("rw", tk "ATTRIBUTE" "RW"); ("ro", tk "ATTRIBUTE" "RO");
    ("say", tk "SAY" "SAY"); ("static", tk "ATTRIBUTE" "STATIC");
    ("switch", tk "SWITCH" "SWITCH"); ("string", tk "STRING" "STRING");
    ("short", tk "SHORT" "SHORT"); ("scalar", tk "SCALAR" "SCALAR");
    ("true", tk "TRUE" "TRUE"); ("type_name", tk "TYPE_NAME" "TYPE_NAME");
    ("undef", tk "UNDEF" "UNDEF"); ("unless", tk "UNLESS" "UNLESS");
    ("unweaken", tk "UNWEAKEN" "UNLESS"); ("use", tk "USE" "USE");
    ("version", tk "VERSION_DECL" "VERSION_DECL"); ("void", tk "VOID" "VOID");
    ("warn", tk "WARN" "WARN"); ("while", tk "WHILE" "WHILE");
    ("weaken", tk "WEAKEN" "WEAKEN"); ("wo", tk "ATTRIBUTE" "WO");
    ("INIT", tk "INIT" "INIT"); ("__PACKAGE__", tk "OUTMOST_CLASS_NAME" "OUTMOST_CLASS_NAME") ]%string.

(** ** Tokens *)

(** What is expected because of the tokens before: behind an arrow, a method name;
    behind "->{" or "has", a field name; behind "method" or "&", a method name. *)
Inductive context := Free | Arrow | Method_name | Field_name.

Section Numbers.
  Context {F D : Type}.
  Local Notation token := (token (constant F D)).
  Local Notation op k := (Tok (K := constant F D) (fst k) (snd k)).

  Definition context_after (x : context) (t : token) : context :=
    match t with
    | Tok "ARROW" _ => Arrow
    | Tok "OUTMOST_CLASS" _ | Tok "METHOD" _ => Method_name
    | Tok "HAS" _ => Field_name
    | Tok "{" _ => match x with Arrow => Field_name | _ => Free end
    | _ => Free
    end.

  (** A token that begins at one position and ends at another. *)
  Inductive lexeme (x : context) : pos -> token -> pos -> Prop :=
  | T_operator : forall pl l f t k rest, In (t, k) operators -> operator_here pl t rest -> t <> "<"%string -> t <> ">"%string ->
      lexeme x (Pos pl l f (bytes t ++ rest)) (op k) (Pos Inside l f rest)
  (* with the blank behind them: see C64_less_refuted *)
  | T_compare : forall pl l f t k c rest, In (t, k) operators -> t = "<"%string \/ t = ">"%string -> blank c ->
      lexeme x (Pos pl l f (bytes t ++ c :: rest)) (op k) (Pos Inside l f rest)
  | T_current_class : forall pl l f c rest, letter c \/ c = 95 ->
      lexeme x (Pos pl l f (38 :: c :: rest)) (Tok "OUTMOST_CLASS" "OUTMOST_CLASS") (Pos Inside l f (c :: rest))
  | T_dereference : forall pl l f rest, lexeme x (Pos pl l f (36 :: 36 :: rest)) (Tok "DEREFERENCE" "DEREFERENCE") (Pos Inside l f (36 :: rest))
  | T_exception : forall pl l f rest, lexeme x (Pos pl l f (bytes "$@" ++ rest)) (Tok "EXCEPTION_VAR" "EXCEPTION_VAR") (Pos Inside l f rest)
  | T_exception_brace : forall pl l f rest, lexeme x (Pos pl l f (bytes "${@}" ++ rest)) (Tok "EXCEPTION_VAR" "EXCEPTION_VAR") (Pos Inside l f rest)
  | T_variable : forall pl l f n rest, symbol_name n -> name_stops rest ->
      lexeme x (Pos pl l f (36 :: n ++ rest)) (Var (36 :: n)) (Pos Inside l f rest)
  | T_variable_brace : forall pl l f n rest, symbol_name n ->
      lexeme x (Pos pl l f (36 :: 123 :: n ++ 125 :: rest)) (Var (36 :: n)) (Pos Inside l f rest)
  | T_keyword : forall pl l f n k rest, x = Free -> In (n, k) keywords -> n <> "scalar"%string -> name_stops rest -> ~ fat rest ->
      lexeme x (Pos pl l f (bytes n ++ rest)) (op k) (Pos Inside l f rest)
  (* with the blank behind it: see C64_scalar_refuted *)
  | T_scalar : forall pl l f c rest, x = Free -> blank c -> ~ fat (c :: rest) ->
      lexeme x (Pos pl l f (bytes "scalar" ++ c :: rest)) (Tok "SCALAR" "SCALAR") (Pos Inside l f rest)
  | T_file : forall pl l f rest, x = Free -> name_stops rest -> ~ fat rest ->
      lexeme x (Pos pl l f (bytes "__FILE__" ++ rest)) (Str f) (Pos Inside l f rest)
  | T_line : forall pl l f rest, x = Free -> name_stops rest -> ~ fat rest ->
      lexeme x (Pos pl l f (bytes "__LINE__" ++ rest)) (Num (CInt l)) (Pos Inside l f rest)
  | T_symbol : forall pl l f n rest, symbol_name n -> name_stops rest -> ~ fat rest ->
      (x = Free -> forall k, ~ In (k, n) (map (fun e => (snd e, bytes (fst e))) keywords)) ->
      ~ begins "q'" (n ++ rest) ->
      lexeme x (Pos pl l f (n ++ rest)) (Sym n) (Pos Inside l f rest)
  | T_key : forall pl l f n rest, symbol_name n -> lacks "::" n -> name_stops rest -> fat rest ->
      lexeme x (Pos pl l f (n ++ rest)) (Str n) (Pos Inside l f rest)
  | T_integer : forall pl l f minus t base ds v suffix w rest,
      integer_text t base ds -> number base ds v ->
      (suffix = [] /\ match rest with [] => True | c :: _ => ends base c /\ ~ suffix_letter c end) \/ suffix = [108] \/ suffix = [76] ->
      let bits := match suffix with [] => 32 | _ => 64 end in
      (minus = true -> base <> 10 -> v <> 2 ^ (bits - 1)) -> integer_value bits base minus v w ->
      lexeme x (Pos pl l f ((if minus : bool then [45] else []) ++ t ++ suffix ++ rest))
        (Num match suffix with [] => CInt w | _ => CLong w end) (Pos Inside l f rest)
  (* no line terminator: see C64_character_refuted *)
  | T_character : forall pl l f t v w rest, char_text t v (39 :: rest) -> 0 <= v <= 255 -> as_byte v w -> ~ In 10 t ->
      lexeme x (Pos pl l f (39 :: t ++ 39 :: rest)) (Chr w) (Pos Inside l f rest)
  | T_single_quoted : forall pl l f t bs rest, single t bs ->
      lexeme x (Pos pl l f (bytes "q'" ++ t ++ 39 :: rest)) (Str bs) (Pos Inside (l + count_lines t) f rest).

  (** Tokens with nothing in between. *)
  Notation placed t p := (t, at_line p, at_file p).
  Inductive lexemes : context -> pos -> list (token * Z * list Z) -> pos -> Prop :=
  | Lexemes_nil : forall x p, lexemes x p [] p
  | Lexemes_cons : forall x p t q ts r, lexeme x p t q -> lexemes (context_after x t) q ts r -> lexemes x p (placed t q :: ts) r.

  (** Names of here documents. *)
  Definition doc_name (n : list Z) : Prop :=
    n <> [] /\ Forall word n /\ lacks "__" n /\ ~ starts (fun c => 48 <= c <= 57) n.

  (** ** The tokens of a text from a position on; [string_at]: inside of a
      double-quoted literal. *)
  Inductive reads : context -> pos -> list (token * Z * list Z) -> Prop :=
  | R_end : forall x p q, skips p q -> text q = [] -> reads x p [placed (Tok "END_OF_FILE" "END_OF_FILE") q]
  | R_END : forall x p q rest, skips p q -> x = Free -> text q = bytes "__END__" ++ rest -> name_stops rest -> ~ fat rest ->
      reads x p [placed (Tok "END_OF_FILE" "END_OF_FILE") q]
  | R_token : forall x p q t r ts, skips p q -> lexeme x q t r -> reads (context_after x t) r ts -> reads x p (placed t r :: ts)
  | R_document : forall x p q n ls rest ts, skips p q ->
      text q = bytes "<<'" ++ n ++ bytes "';" ++ 10 :: concat (map (fun u => u ++ [10]) ls) ++ n ++ 10 :: rest ->
      doc_name n -> Forall (fun u => one_line u /\ u <> n) ls -> rest <> [] ->
      let e := Pos Line_start (at_line q + zlen ls + 2) (at_file q) rest in
      reads Free e ts ->
      reads x p (placed (Str (concat (map (fun u => u ++ [10]) ls))) e :: placed (Tok ";" "DO_NOTHING") e :: ts)
  | R_string : forall x p q s ts, skips p q -> text q = 34 :: s -> string_at (at_line q) (at_file q) s ts -> reads x p ts
  with string_at : Z -> list Z -> list Z -> list (token * Z * list Z) -> Prop :=
  | S_end : forall l f t bs rest ts, body t bs (34 :: rest) ->
      let l' := l + count_lines t in
      reads Free (Pos Inside l' f rest) ts ->
      string_at l f (t ++ 34 :: rest) ((Str bs, l', f) :: ts)
  | S_variable : forall l f t bs v vs rest ts, body t bs (36 :: v ++ rest) -> expansion v rest ->
      let l' := l + count_lines t in
      lexemes Free (Pos Inside l' f (36 :: v ++ rest)) vs (Pos Inside l' f rest) ->
      string_at l' f rest ts ->
      string_at l f (t ++ 36 :: v ++ rest)
        ((Str bs, l', f) :: (Tok "." "STRING_CONCAT", l', f) :: vs ++ (Tok "." "STRING_CONCAT", l', f) :: ts).
End Numbers.
