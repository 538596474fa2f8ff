(** * The grammar of the language (C67)

    The documented grammar and the documented precedence of operators, Language/
    SyntaxParsing.pm, and what they mean for the shape of a tree. This file uses the
    type of trees of Yacc_model.v and nothing else of it. *)
From Coq Require Import String Ascii.
From Verif Require Import Base Yacc_model.
Local Open Scope string_scope.
Local Open Scope Z_scope.

(** ** Symbols are numbered in the order of these lists. *)
Definition terminals : list string := [
   "$end"; "error"; "$undefined"; "CLASS"; "HAS"; "METHOD"; "OUR"; "ENUM"; "MY"; "USE"; "AS";
   "REQUIRE"; "ALIAS"; "ALLOW"; "OUTMOST_CLASS"; "MUTABLE"; "ATTRIBUTE"; "MAKE_READ_ONLY";
   "INTERFACE"; "EVAL_ERROR_ID"; "ARGS_WIDTH"; "VERSION_DECL"; "IF"; "UNLESS"; "ELSIF"; "ELSE";
   "FOR"; "WHILE"; "LAST"; "NEXT"; "SWITCH"; "CASE"; "DEFAULT"; "BREAK"; "EVAL"; "SYMBOL_NAME";
   "VAR_NAME"; "CONSTANT"; "EXCEPTION_VAR"; "UNDEF"; "VOID"; "BYTE"; "SHORT"; "INT"; "LONG";
   "FLOAT"; "DOUBLE"; "STRING"; "OBJECT"; "TRUE"; "FALSE"; "END_OF_FILE"; "FATCAMMA"; "RW";
   "RO"; "WO"; "INIT"; "NEW"; "OF"; "BASIC_TYPE_ID"; "EXTENDS"; "SUPER"; "RETURN"; "WEAKEN";
   "DIE"; "WARN"; "PRINT"; "SAY"; "OUTMOST_CLASS_NAME"; "UNWEAKEN"; "'['"; "'{'"; "'('";
   "ASSIGN"; "SPECIAL_ASSIGN"; "LOGICAL_OR"; "LOGICAL_AND"; "BIT_OR"; "BIT_XOR"; "BIT_AND";
   "NUMEQ"; "NUMNE"; "STREQ"; "STRNE"; "NUMGT"; "NUMGE"; "NUMLT"; "NUMLE"; "STRGT"; "STRGE";
   "STRLT"; "STRLE"; "ISA"; "ISA_ERROR"; "IS_TYPE"; "IS_ERROR"; "IS_COMPILE_TYPE";
   "NUMERIC_CMP"; "STRING_CMP"; "CAN"; "SHIFT"; "'+'"; "'-'"; "'.'"; "'*'"; "DIVIDE";
   "DIVIDE_UNSIGNED_INT"; "DIVIDE_UNSIGNED_LONG"; "MODULO"; "MODULO_UNSIGNED_INT";
   "MODULO_UNSIGNED_LONG"; "LOGICAL_NOT"; "BIT_NOT"; "'@'"; "REFERENCE"; "DEREFERENCE"; "PLUS";
   "MINUS"; "CONVERT"; "SCALAR"; "STRING_LENGTH"; "ISWEAK"; "TYPE_NAME"; "COMPILE_TYPE_NAME";
   "DUMP"; "NEW_STRING_LEN"; "IS_READ_ONLY"; "COPY"; "INC"; "DEC"; "ARROW"; "']'"; "':'"; "';'";
   "'}'"; "','"; "')'"].
Definition nonterminals : list string := [
   "$accept"; "grammar"; "field_name"; "method_name"; "class_name"; "qualified_type"; "type";
   "basic_type"; "ref_type"; "array_type"; "array_type_with_length"; "return_type";
   "opt_type_comment"; "type_comment"; "union_type"; "opt_classes"; "classes"; "class";
   "opt_basic_type"; "opt_extends"; "class_block"; "opt_definitions"; "definitions";
   "definition"; "init_statement"; "version_decl"; "use"; "require"; "class_alias"; "allow";
   "interface"; "enumeration"; "enumeration_block"; "opt_enumeration_items";
   "enumeration_items"; "enumeration_item"; "our"; "has"; "method"; "anon_method"; "opt_args";
   "args"; "arg"; "anon_method_fields"; "anon_method_field"; "opt_attributes"; "attributes";
   "opt_statements"; "statements"; "statement"; "die"; "void_return_operator"; "warn";
   "for_statement"; "foreach_statement"; "while_statement"; "switch_statement"; "switch_block";
   "opt_case_statements"; "case_statements"; "case_statement"; "default_statement";
   "if_require_statement"; "if_statement"; "else_statement"; "block"; "eval_block"; "var_decl";
   "var"; "opt_operators"; "opt_operator"; "operator"; "sequential"; "operators";
   "unary_operator"; "array_length"; "inc"; "dec"; "binary_operator"; "arithmetic_operator";
   "bit_operator"; "comparison_operator"; "string_concatenation"; "logical_operator";
   "type_check"; "type_cast"; "can"; "assign"; "new"; "array_init"; "call_method";
   "array_access"; "field_access"; "weaken_field"; "unweaken_field"; "isweak_field"].
Definition symbols : list string := (terminals ++ nonterminals)%list.

Fixpoint position {A} (f : A -> bool) (l : list A) : Z :=
  match l with [] => 0 | x :: l => if f x then 0 else 1 + position f l end.
Definition num (x : string) : Z := position (String.eqb x) symbols.

(** The codes of the tokens: a quoted character is its own code, the others are
    numbered from 258 on (Builder/include/spvm_yacc.h). *)
Definition quoted (x : string) : option Z :=
  match x with
  | String "'" (String c (String "'" "")) => Some (Z.of_N (N_of_ascii c))
  | _ => None
  end.
Fixpoint codes (l : list string) (next : Z) : list Z :=
  match l with
  | [] => []
  | x :: l => match quoted x with Some c => c :: codes l next | None => next :: codes l (next + 1) end
  end.
(** $end, error and $undefined are not tokens of a source. *)
Definition token_codes : list Z := codes (skipn 3 terminals) 258.
(** The terminal of a code: error (1) has the code 256, a code without a terminal is
    $undefined (2). *)
Definition kind (c : Z) : Z :=
  if existsb (Z.eqb c) token_codes then 3 + position (Z.eqb c) token_codes else if c =? 256 then 1 else 2.

(** ** The rules, in their order; the first one has the number 2. (The document has
    a stray brace behind MUTABLE type.) *)
Definition documented : list (string * list string) := [
  ("grammar", ["opt_classes"]);
  ("field_name", ["SYMBOL_NAME"]);
  ("method_name", ["SYMBOL_NAME"]);
  ("class_name", ["SYMBOL_NAME"]);
  ("qualified_type", ["type"]);
  ("qualified_type", ["MUTABLE"; "type"]);
  ("type", ["basic_type"]);
  ("type", ["array_type"]);
  ("type", ["ref_type"]);
  ("basic_type", ["SYMBOL_NAME"]);
  ("basic_type", ["BYTE"]);
  ("basic_type", ["SHORT"]);
  ("basic_type", ["INT"]);
  ("basic_type", ["LONG"]);
  ("basic_type", ["FLOAT"]);
  ("basic_type", ["DOUBLE"]);
  ("basic_type", ["OBJECT"]);
  ("basic_type", ["STRING"]);
  ("ref_type", ["basic_type"; "'*'"]);
  ("array_type", ["basic_type"; "'['"; "']'"]);
  ("array_type", ["array_type"; "'['"; "']'"]);
  ("array_type_with_length", ["basic_type"; "'['"; "operator"; "']'"]);
  ("array_type_with_length", ["array_type"; "'['"; "operator"; "']'"]);
  ("return_type", ["qualified_type"; "opt_type_comment"]);
  ("return_type", ["VOID"]);
  ("opt_type_comment", []);
  ("opt_type_comment", ["type_comment"]);
  ("type_comment", ["OF"; "union_type"]);
  ("union_type", ["union_type"; "BIT_OR"; "type"]);
  ("union_type", ["type"]);
  ("opt_classes", []);
  ("opt_classes", ["classes"]);
  ("classes", ["classes"; "class"]);
  ("classes", ["class"]);
  ("class", ["CLASS"; "opt_basic_type"; "opt_extends"; "class_block"; "END_OF_FILE"]);
  ("class", ["CLASS"; "opt_basic_type"; "opt_extends"; "':'"; "opt_attributes"; "class_block"; "END_OF_FILE"]);
  ("class", ["CLASS"; "opt_basic_type"; "opt_extends"; "';'"; "END_OF_FILE"]);
  ("class", ["CLASS"; "opt_basic_type"; "opt_extends"; "':'"; "opt_attributes"; "';'"; "END_OF_FILE"]);
  ("opt_basic_type", []);
  ("opt_basic_type", ["basic_type"]);
  ("opt_extends", []);
  ("opt_extends", ["EXTENDS"; "basic_type"]);
  ("class_block", ["'{'"; "opt_definitions"; "'}'"]);
  ("opt_definitions", []);
  ("opt_definitions", ["definitions"]);
  ("definitions", ["definitions"; "definition"]);
  ("definitions", ["definition"]);
  ("definition", ["version_decl"]);
  ("definition", ["use"]);
  ("definition", ["class_alias"]);
  ("definition", ["allow"]);
  ("definition", ["interface"]);
  ("definition", ["init_statement"]);
  ("definition", ["enumeration"]);
  ("definition", ["our"]);
  ("definition", ["has"; "';'"]);
  ("definition", ["method"]);
  ("init_statement", ["INIT"; "block"]);
  ("version_decl", ["VERSION_DECL"; "CONSTANT"; "';'"]);
  ("use", ["USE"; "basic_type"; "';'"]);
  ("use", ["USE"; "basic_type"; "AS"; "class_name"; "';'"]);
  ("require", ["REQUIRE"; "basic_type"]);
  ("class_alias", ["ALIAS"; "basic_type"; "AS"; "class_name"; "';'"]);
  ("allow", ["ALLOW"; "basic_type"; "';'"]);
  ("interface", ["INTERFACE"; "basic_type"; "';'"]);
  ("enumeration", ["opt_attributes"; "ENUM"; "enumeration_block"]);
  ("enumeration_block", ["'{'"; "opt_enumeration_items"; "'}'"]);
  ("opt_enumeration_items", []);
  ("opt_enumeration_items", ["enumeration_items"]);
  ("enumeration_items", ["enumeration_items"; "','"; "enumeration_item"]);
  ("enumeration_items", ["enumeration_items"; "','"]);
  ("enumeration_items", ["enumeration_item"]);
  ("enumeration_item", ["method_name"]);
  ("enumeration_item", ["method_name"; "ASSIGN"; "CONSTANT"]);
  ("our", ["OUR"; "VAR_NAME"; "':'"; "opt_attributes"; "qualified_type"; "opt_type_comment"; "';'"]);
  ("has", ["HAS"; "field_name"; "':'"; "opt_attributes"; "qualified_type"; "opt_type_comment"]);
  ("method", ["opt_attributes"; "METHOD"; "method_name"; "':'"; "return_type"; "'('"; "opt_args"; "')'"; "block"]);
  ("method", ["opt_attributes"; "METHOD"; "method_name"; "':'"; "return_type"; "'('"; "opt_args"; "')'"; "';'"]);
  ("method", ["opt_attributes"; "METHOD"; "':'"; "return_type"; "'('"; "opt_args"; "')'"; "block"]);
  ("method", ["opt_attributes"; "METHOD"; "':'"; "return_type"; "'('"; "opt_args"; "')'"; "';'"]);
  ("anon_method", ["opt_attributes"; "METHOD"; "':'"; "return_type"; "'('"; "opt_args"; "')'"; "block"]);
  ("anon_method", ["'['"; "anon_method_fields"; "']'"; "opt_attributes"; "METHOD"; "':'"; "return_type"; "'('"; "opt_args"; "')'"; "block"]);
  ("opt_args", []);
  ("opt_args", ["args"]);
  ("args", ["args"; "','"; "arg"]);
  ("args", ["args"; "','"]);
  ("args", ["arg"]);
  ("arg", ["var"; "':'"; "qualified_type"; "opt_type_comment"]);
  ("arg", ["var"; "':'"; "qualified_type"; "opt_type_comment"; "ASSIGN"; "operator"]);
  ("anon_method_fields", ["anon_method_fields"; "','"; "anon_method_field"]);
  ("anon_method_fields", ["anon_method_fields"; "','"]);
  ("anon_method_fields", ["anon_method_field"]);
  ("anon_method_field", ["HAS"; "field_name"; "':'"; "opt_attributes"; "qualified_type"; "opt_type_comment"]);
  ("anon_method_field", ["HAS"; "field_name"; "':'"; "opt_attributes"; "qualified_type"; "opt_type_comment"; "ASSIGN"; "operator"]);
  ("anon_method_field", ["var"; "':'"; "opt_attributes"; "qualified_type"; "opt_type_comment"]);
  ("anon_method_field", ["var"; "':'"; "opt_attributes"; "qualified_type"; "opt_type_comment"; "ASSIGN"; "operator"]);
  ("opt_attributes", []);
  ("opt_attributes", ["attributes"]);
  ("attributes", ["attributes"; "ATTRIBUTE"]);
  ("attributes", ["ATTRIBUTE"]);
  ("opt_statements", []);
  ("opt_statements", ["statements"]);
  ("statements", ["statements"; "statement"]);
  ("statements", ["statement"]);
  ("statement", ["if_statement"]);
  ("statement", ["for_statement"]);
  ("statement", ["foreach_statement"]);
  ("statement", ["while_statement"]);
  ("statement", ["block"]);
  ("statement", ["switch_statement"]);
  ("statement", ["case_statement"]);
  ("statement", ["default_statement"]);
  ("statement", ["eval_block"]);
  ("statement", ["if_require_statement"]);
  ("statement", ["LAST"; "';'"]);
  ("statement", ["NEXT"; "';'"]);
  ("statement", ["BREAK"; "';'"]);
  ("statement", ["RETURN"; "';'"]);
  ("statement", ["RETURN"; "operator"; "';'"]);
  ("statement", ["operator"; "';'"]);
  ("statement", ["void_return_operator"; "';'"]);
  ("statement", ["';'"]);
  ("statement", ["die"; "';'"]);
  ("die", ["DIE"; "operator"]);
  ("die", ["DIE"]);
  ("die", ["DIE"; "type"; "operator"]);
  ("die", ["DIE"; "type"]);
  ("die", ["DIE"; "operator"; "','"; "operator"]);
  ("void_return_operator", ["warn"]);
  ("void_return_operator", ["PRINT"; "operator"]);
  ("void_return_operator", ["SAY"; "operator"]);
  ("void_return_operator", ["weaken_field"]);
  ("void_return_operator", ["unweaken_field"]);
  ("void_return_operator", ["MAKE_READ_ONLY"; "operator"]);
  ("warn", ["WARN"; "operator"]);
  ("warn", ["WARN"]);
  ("for_statement", ["FOR"; "'('"; "opt_operator"; "';'"; "operator"; "';'"; "opt_operator"; "')'"; "block"]);
  ("foreach_statement", ["FOR"; "var_decl"; "'('"; "'@'"; "operator"; "')'"; "block"]);
  ("foreach_statement", ["FOR"; "var_decl"; "'('"; "'@'"; "'{'"; "operator"; "'}'"; "')'"; "block"]);
  ("while_statement", ["WHILE"; "'('"; "operator"; "')'"; "block"]);
  ("switch_statement", ["SWITCH"; "'('"; "operator"; "')'"; "switch_block"]);
  ("switch_block", ["'{'"; "opt_case_statements"; "'}'"]);
  ("switch_block", ["'{'"; "opt_case_statements"; "default_statement"; "'}'"]);
  ("opt_case_statements", []);
  ("opt_case_statements", ["case_statements"]);
  ("case_statements", ["case_statements"; "case_statement"]);
  ("case_statements", ["case_statement"]);
  ("case_statement", ["CASE"; "operator"; "':'"; "block"]);
  ("case_statement", ["CASE"; "operator"; "':'"]);
  ("default_statement", ["DEFAULT"; "':'"; "block"]);
  ("default_statement", ["DEFAULT"; "':'"]);
  ("if_require_statement", ["IF"; "'('"; "require"; "')'"; "block"]);
  ("if_require_statement", ["IF"; "'('"; "require"; "')'"; "block"; "ELSE"; "block"]);
  ("if_statement", ["IF"; "'('"; "operator"; "')'"; "block"; "else_statement"]);
  ("if_statement", ["UNLESS"; "'('"; "operator"; "')'"; "block"; "else_statement"]);
  ("else_statement", []);
  ("else_statement", ["ELSE"; "block"]);
  ("else_statement", ["ELSIF"; "'('"; "operator"; "')'"; "block"; "else_statement"]);
  ("block", ["'{'"; "opt_statements"; "'}'"]);
  ("eval_block", ["EVAL"; "block"]);
  ("var_decl", ["MY"; "var"; "':'"; "qualified_type"; "opt_type_comment"]);
  ("var_decl", ["MY"; "var"]);
  ("var", ["VAR_NAME"]);
  ("opt_operators", []);
  ("opt_operators", ["operators"]);
  ("opt_operator", []);
  ("opt_operator", ["operator"]);
  ("operator", ["var"]);
  ("operator", ["EXCEPTION_VAR"]);
  ("operator", ["CONSTANT"]);
  ("operator", ["UNDEF"]);
  ("operator", ["type_cast"]);
  ("operator", ["new"]);
  ("operator", ["var_decl"]);
  ("operator", ["EVAL_ERROR_ID"]);
  ("operator", ["ARGS_WIDTH"]);
  ("operator", ["TRUE"]);
  ("operator", ["FALSE"]);
  ("operator", ["OUTMOST_CLASS_NAME"]);
  ("operator", ["unary_operator"]);
  ("operator", ["binary_operator"]);
  ("operator", ["assign"]);
  ("operator", ["inc"]);
  ("operator", ["dec"]);
  ("operator", ["type_check"]);
  ("operator", ["BASIC_TYPE_ID"; "type"]);
  ("operator", ["can"]);
  ("operator", ["array_init"]);
  ("operator", ["array_access"]);
  ("operator", ["field_access"]);
  ("operator", ["isweak_field"]);
  ("operator", ["call_method"]);
  ("operator", ["sequential"]);
  ("sequential", ["'('"; "operators"; "')'"]);
  ("operators", ["operators"; "','"; "operator"]);
  ("operators", ["operators"; "','"]);
  ("operators", ["operator"]);
  ("unary_operator", ["'+'"; "operator"]);
  ("unary_operator", ["'-'"; "operator"]);
  ("unary_operator", ["BIT_NOT"; "operator"]);
  ("unary_operator", ["TYPE_NAME"; "operator"]);
  ("unary_operator", ["COMPILE_TYPE_NAME"; "operator"]);
  ("unary_operator", ["STRING_LENGTH"; "operator"]);
  ("unary_operator", ["DUMP"; "operator"]);
  ("unary_operator", ["DEREFERENCE"; "var"]);
  ("unary_operator", ["REFERENCE"; "operator"]);
  ("unary_operator", ["NEW_STRING_LEN"; "operator"]);
  ("unary_operator", ["COPY"; "operator"]);
  ("unary_operator", ["IS_READ_ONLY"; "operator"]);
  ("unary_operator", ["array_length"]);
  ("array_length", ["'@'"; "operator"]);
  ("array_length", ["'@'"; "'{'"; "operator"; "'}'"]);
  ("array_length", ["SCALAR"; "'@'"; "operator"]);
  ("array_length", ["SCALAR"; "'@'"; "'{'"; "operator"; "'}'"]);
  ("inc", ["INC"; "operator"]);
  ("inc", ["operator"; "INC"]);
  ("dec", ["DEC"; "operator"]);
  ("dec", ["operator"; "DEC"]);
  ("binary_operator", ["arithmetic_operator"]);
  ("binary_operator", ["bit_operator"]);
  ("binary_operator", ["comparison_operator"]);
  ("binary_operator", ["string_concatenation"]);
  ("binary_operator", ["logical_operator"]);
  ("arithmetic_operator", ["operator"; "'+'"; "operator"]);
  ("arithmetic_operator", ["operator"; "'-'"; "operator"]);
  ("arithmetic_operator", ["operator"; "'*'"; "operator"]);
  ("arithmetic_operator", ["operator"; "DIVIDE"; "operator"]);
  ("arithmetic_operator", ["operator"; "DIVIDE_UNSIGNED_INT"; "operator"]);
  ("arithmetic_operator", ["operator"; "DIVIDE_UNSIGNED_LONG"; "operator"]);
  ("arithmetic_operator", ["operator"; "MODULO"; "operator"]);
  ("arithmetic_operator", ["operator"; "MODULO_UNSIGNED_INT"; "operator"]);
  ("arithmetic_operator", ["operator"; "MODULO_UNSIGNED_LONG"; "operator"]);
  ("bit_operator", ["operator"; "BIT_XOR"; "operator"]);
  ("bit_operator", ["operator"; "BIT_AND"; "operator"]);
  ("bit_operator", ["operator"; "BIT_OR"; "operator"]);
  ("bit_operator", ["operator"; "SHIFT"; "operator"]);
  ("comparison_operator", ["operator"; "NUMEQ"; "operator"]);
  ("comparison_operator", ["operator"; "NUMNE"; "operator"]);
  ("comparison_operator", ["operator"; "NUMGT"; "operator"]);
  ("comparison_operator", ["operator"; "NUMGE"; "operator"]);
  ("comparison_operator", ["operator"; "NUMLT"; "operator"]);
  ("comparison_operator", ["operator"; "NUMLE"; "operator"]);
  ("comparison_operator", ["operator"; "NUMERIC_CMP"; "operator"]);
  ("comparison_operator", ["operator"; "STREQ"; "operator"]);
  ("comparison_operator", ["operator"; "STRNE"; "operator"]);
  ("comparison_operator", ["operator"; "STRGT"; "operator"]);
  ("comparison_operator", ["operator"; "STRGE"; "operator"]);
  ("comparison_operator", ["operator"; "STRLT"; "operator"]);
  ("comparison_operator", ["operator"; "STRLE"; "operator"]);
  ("comparison_operator", ["operator"; "STRING_CMP"; "operator"]);
  ("string_concatenation", ["operator"; "'.'"; "operator"]);
  ("logical_operator", ["operator"; "LOGICAL_OR"; "operator"]);
  ("logical_operator", ["operator"; "LOGICAL_AND"; "operator"]);
  ("logical_operator", ["LOGICAL_NOT"; "operator"]);
  ("type_check", ["operator"; "ISA"; "type"]);
  ("type_check", ["operator"; "ISA_ERROR"; "type"]);
  ("type_check", ["operator"; "IS_TYPE"; "type"]);
  ("type_check", ["operator"; "IS_ERROR"; "type"]);
  ("type_check", ["operator"; "IS_COMPILE_TYPE"; "type"]);
  ("type_cast", ["'('"; "qualified_type"; "')'"; "operator"]);
  ("type_cast", ["operator"; "ARROW"; "'('"; "qualified_type"; "')'"]);
  ("can", ["operator"; "CAN"; "method_name"]);
  ("can", ["operator"; "CAN"; "CONSTANT"]);
  ("assign", ["operator"; "ASSIGN"; "operator"]);
  ("assign", ["operator"; "SPECIAL_ASSIGN"; "operator"]);
  ("new", ["NEW"; "basic_type"]);
  ("new", ["NEW"; "array_type_with_length"]);
  ("new", ["anon_method"]);
  ("array_init", ["'['"; "opt_operators"; "']'"]);
  ("array_init", ["'{'"; "operators"; "'}'"]);
  ("array_init", ["'{'"; "'}'"]);
  ("call_method", ["OUTMOST_CLASS"; "SYMBOL_NAME"; "'('"; "opt_operators"; "')'"]);
  ("call_method", ["OUTMOST_CLASS"; "SYMBOL_NAME"]);
  ("call_method", ["basic_type"; "ARROW"; "method_name"; "'('"; "opt_operators"; "')'"]);
  ("call_method", ["basic_type"; "ARROW"; "method_name"]);
  ("call_method", ["operator"; "ARROW"; "method_name"; "'('"; "opt_operators"; "')'"]);
  ("call_method", ["operator"; "ARROW"; "method_name"]);
  ("call_method", ["operator"; "ARROW"; "'('"; "opt_operators"; "')'"]);
  ("array_access", ["operator"; "ARROW"; "'['"; "operator"; "']'"]);
  ("array_access", ["array_access"; "'['"; "operator"; "']'"]);
  ("array_access", ["field_access"; "'['"; "operator"; "']'"]);
  ("field_access", ["operator"; "ARROW"; "'{'"; "field_name"; "'}'"]);
  ("field_access", ["field_access"; "'{'"; "field_name"; "'}'"]);
  ("field_access", ["array_access"; "'{'"; "field_name"; "'}'"]);
  ("weaken_field", ["WEAKEN"; "var"; "ARROW"; "'{'"; "field_name"; "'}'"]);
  ("unweaken_field", ["UNWEAKEN"; "var"; "ARROW"; "'{'"; "field_name"; "'}'"]);
  ("isweak_field", ["ISWEAK"; "var"; "ARROW"; "'{'"; "field_name"; "'}'"])].
Definition rules : list (Z * list Z) := map (fun '(l, r) => (num l, map num r)) documented.
Definition rule (k : Z) : option (Z * list Z) := znth rules (k - 2).
Definition lhs (k : Z) : Z := match rule k with Some (l, _) => l | None => -1 end.
Definition rhs (k : Z) : list Z := match rule k with Some (_, r) => r | None => [] end.

(** ** Derivations *)
Definition root (t : tree) : Z := match t with Leaf c _ => kind c | Node k _ => lhs k end.
Fixpoint roots (ts : trees) : list Z := match ts with Nil => [] | Cons t ts => root t :: roots ts end.
Fixpoint derivation (t : tree) : Prop :=
  match t with
  | Leaf _ _ => True
  | Node k ts => rule k <> None /\ roots ts = rhs k /\ derivations ts
  end
with derivations (ts : trees) : Prop :=
  match ts with Nil => True | Cons t ts => derivation t /\ derivations ts end.

(** The tokens of a tree from left to right. *)
Fixpoint yield (t : tree) : list (Z * nat) :=
  match t with Leaf c v => [(c, v)] | Node _ ts => yields ts end
with yields (ts : trees) : list (Z * nat) :=
  match ts with Nil => [] | Cons t ts => (yield t ++ yields ts)%list end.
(** The first terminal of [w], or [b] if there is none. *)
Definition first_of (w : list (Z * nat)) (b : Z) : Z := match w with [] => b | (c, _) :: _ => kind c end.

(** ** Precedence: the tightest operators come last. *)
Inductive assoc := Left | Right | Nonassoc.
Definition precedence : list (assoc * list string) := [
  (Right, ["ASSIGN"; "SPECIAL_ASSIGN"]);
  (Left, ["LOGICAL_OR"]);
  (Left, ["LOGICAL_AND"]);
  (Left, ["BIT_OR"; "BIT_XOR"]);
  (Left, ["BIT_AND"]);
  (Nonassoc, ["NUMEQ"; "NUMNE"; "STREQ"; "STRNE"]);
  (Nonassoc, ["NUMGT"; "NUMGE"; "NUMLT"; "NUMLE"; "STRGT"; "STRGE"; "STRLT"; "STRLE"; "ISA"; "ISA_ERROR";
              "IS_TYPE"; "IS_ERROR"; "IS_COMPILE_TYPE"; "NUMERIC_CMP"; "STRING_CMP"; "CAN"]);
  (Left, ["SHIFT"]);
  (Left, ["'+'"; "'-'"; "'.'"]);
  (Left, ["'*'"; "DIVIDE"; "DIVIDE_UNSIGNED_INT"; "DIVIDE_UNSIGNED_LONG"; "MODULO"; "MODULO_UNSIGNED_INT";
          "MODULO_UNSIGNED_LONG"]);
  (Right, ["LOGICAL_NOT"; "BIT_NOT"; "'@'"; "REFERENCE"; "DEREFERENCE"; "PLUS"; "MINUS"; "CONVERT"; "SCALAR";
           "STRING_LENGTH"; "ISWEAK"; "TYPE_NAME"; "COMPILE_TYPE_NAME"; "DUMP"; "NEW_STRING_LEN"; "IS_READ_ONLY";
           "COPY"]);
  (Nonassoc, ["INC"; "DEC"]);
  (Left, ["ARROW"])].
(** The level of a terminal, 1 for the loosest; 0 without a precedence. *)
Definition levels : list (assoc * list Z) := map (fun '(a, xs) => (a, map num xs)) precedence.
Fixpoint find_level (l : list (assoc * list Z)) (n : nat) (t : Z) : nat * assoc :=
  match l with
  | [] => (O, Left)
  | (a, xs) :: l => if existsb (Z.eqb t) xs then (n, a) else find_level l (S n) t
  end.
Definition level (t : Z) : nat * assoc := find_level levels 1 t.
(** %prec: the rules for the signs and the cast. *)
Definition named_prec (k : Z) : option string :=
  match rule k with
  | Some (_, [x; y]) => if x =? num "'+'" then Some "PLUS" else if x =? num "'-'" then Some "MINUS" else None
  | Some (_, [x; _; _; _]) => if x =? num "'('" then Some "CONVERT" else None
  | _ => None
  end.
Definition is_terminal (x : Z) : bool := x <? 137.
(** The level of a rule is that of its last terminal, unless it is named. *)
Definition rule_level (k : Z) : nat * assoc :=
  match named_prec k with
  | Some x => level (num x)
  | None => match find is_terminal (rev (rhs k)) with Some t => level t | None => (O, Left) end
  end.

(** The nonterminals of operators: operator and what it can be one by one. *)
Definition operator := num "operator".
Definition operands : list Z := map num
    ["operator"; "var"; "var_decl"; "anon_method"; "sequential"; "unary_operator"; "array_length"; "inc"; "dec";
     "binary_operator"; "arithmetic_operator"; "bit_operator"; "comparison_operator"; "string_concatenation";
     "logical_operator"; "type_check"; "type_cast"; "can"; "assign"; "new"; "array_init"; "call_method";
     "array_access"; "field_access"; "isweak_field"].
Definition operand (x : Z) : bool := existsb (Z.eqb x) operands.

(** A rule is open on the left if it begins with an operand and an operator symbol,
    and open on the right if it ends with an operand. *)
Definition open_left (k : Z) : option nat :=
  match rhs k with
  | x :: o :: _ => if operand (lhs k) && (x =? operator) then Some (fst (level o)) else None
  | _ => None
  end.
Definition open_right (k : Z) : option nat :=
  match rhs k with
  | _ :: _ :: _ => if operand (lhs k) && (last (rhs k) 0 =? operator) then Some (fst (rule_level k)) else None
  | _ => None
  end.
(** The operator symbols that can follow an operand, and the level that they demand
    of it: the same level is good enough on the left of a left associative one. *)
Definition infixes : list Z :=
  flat_map (fun '(l, r) => match r with x :: o :: _ => if operand l && (x =? operator) then [o] else [] | _ => [] end) rules.
Definition infix (b : Z) : bool := existsb (Z.eqb b) infixes.
Definition demands_left (b : Z) : nat :=
  if infix b then match level b with (n, Left) => n | (n, _) => S n end else O.
(** The level that a rule demands of the operand at its right end. *)
Definition demands_right (k : Z) : nat :=
  match rule_level k with (n, Right) => n | (n, _) => S n end.

(** ** Longest match. Where the grammar is ambiguous in other ways, a token that can
    continue a construct does so. The first list has the rules that the token of the
    second column would continue. *)
Definition numbered (l : list (string * list string * string)) : list (Z * list Z * Z) :=
  map (fun '(x, r, t) => (num x, map num r, num t)) l.
Definition longest : list (Z * list Z * Z) := numbered [
  ("case_statement", ["CASE"; "operator"; "':'"], "'{'");
  ("default_statement", ["DEFAULT"; "':'"], "'{'");
  ("type", ["basic_type"], "'['");
  ("type", ["basic_type"], "'*'");
  ("type", ["array_type"], "'['");
  ("var_decl", ["MY"; "var"], "':'");
  ("type_comment", ["OF"; "union_type"], "BIT_OR")].
(** Two constructs that begin with a brace: @{ operator } is not the length of the
    array { operator }, and a statement { } is not an empty block but the empty array
    { }. A mark is handed down to the rules for one element and for no statement. *)
Definition marked : list (Z * list Z * Z) := numbered [
  ("operators", ["operator"], "'}'");
  ("opt_statements", [], "'}'")].
Definition same (a b : list Z) : bool := if list_eq_dec Z.eq_dec a b then true else false.
Definition in_list (l : list (Z * list Z * Z)) (k b : Z) : bool :=
  match rule k with
  | Some (x, r) => existsb (fun '(x', r', t) => (x =? x') && (b =? t) && same r r') l
  | None => false
  end.
(** The number of a rule. *)
Definition rule_number (x : string) (r : list string) : Z :=
  2 + position (fun '(x', r') => (num x =? x') && same (map num r) r') rules.
Definition lengths : list Z :=
  [rule_number "array_length" ["'@'"; "operator"]; rule_number "array_length" ["SCALAR"; "'@'"; "operator"];
   rule_number "foreach_statement" ["FOR"; "var_decl"; "'('"; "'@'"; "operator"; "')'"; "block"]].
Definition block_statement : Z := rule_number "statement" ["block"].
Definition braces : list Z :=
  [rule_number "array_init" ["'{'"; "operators"; "'}'"]; rule_number "block" ["'{'"; "opt_statements"; "'}'"]].
Definition operators := num "operators".
Definition mark (k : Z) (i : nat) (x : Z) (m : bool) : bool :=
  if existsb (Z.eqb k) lengths then x =? operator
  else if k =? block_statement then true
  else if existsb (Z.eqb k) braces then m
  else match i with
       | O => m && (operand (lhs k) && operand x || (lhs k =? operators) && (x =? operators))
       | _ => false
       end.

(** ** A tree fits in a context: [a] is the level that what is on the left demands of
    it, [m] the mark, [b] the terminal on the right. *)
Definition leq (a : nat) (o : option nat) : bool := match o with Some n => Nat.leb a n | None => true end.
Definition node_fits (k : Z) (a : nat) (m : bool) (b : Z) : bool :=
  leq a (open_left k) && leq (demands_left b) (open_right k)
  && negb (in_list longest k b) && negb (m && in_list marked k b).
Definition child_level (k : Z) (i : nat) (x : Z) (a : nat) : nat :=
  if operand (lhs k) && operand x then
    match i with
    | O => a
    | _ => if (Nat.eqb (S i) (length (rhs k))) && (x =? operator) then demands_right k else O
    end
  else O.
Fixpoint fits (a : nat) (m : bool) (t : tree) (b : Z) : Prop :=
  match t with
  | Leaf _ _ => True
  | Node k ts => node_fits k a m b = true /\ all_fit k a m O ts b
  end
with all_fit (k : Z) (a : nat) (m : bool) (i : nat) (ts : trees) (b : Z) : Prop :=
  match ts with
  | Nil => True
  | Cons t ts => fits (child_level k i (root t) a) (mark k i (root t) m) t (first_of (yields ts) b)
                 /\ all_fit k a m (S i) ts b
  end.

(** The entries that the stack of the parser needs. *)
Fixpoint need (t : tree) : nat :=
  match t with Leaf _ _ => 1 | Node _ ts => Nat.max 1 (needs O ts) end
with needs (i : nat) (ts : trees) : nat :=
  match ts with Nil => O | Cons t ts => Nat.max (i + need t) (needs (S i) ts) end.

(** [t] is the reading of the tokens [w]. *)
Definition reading (w : list (Z * nat)) (t : tree) : Prop :=
  derivation t /\ root t = num "grammar" /\ yield t = w /\ fits 0 false t (num "$end").
