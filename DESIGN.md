# Formal model of SPVM in Coq

## 1. Shape of the model

The model is a collection of small, total, computable Gallina functions, one
per C function / SPVM method, each with a comment citing the file and lines
in /repo that it models.  Conventions shared by all files (`Base.v`):

* `int`, `long`, `short`, `byte` are `Z`; C/SPVM arithmetic that can overflow
  is written with an explicit wrap (`wrap32`, `wrap64`, ...).  Signed overflow
  is formally undefined in C and no `-fwrapv` is passed by the build; we model
  the wrap-around every supported target gives and say so where it matters.
* Methods that can throw return a result with three outcomes: a value, a
  thrown exception (`Die`), or undefined behaviour (`UB`: an access outside a
  block, a division trap, ...).  State is threaded through so that the state
  *after an exception* is visible to the theorems.
* Loops are structural recursion on a length, or take fuel with a distinct
  out-of-fuel outcome; theorems then show that the outcome cannot occur.
* Externals (hash function, comparator, allocator, libc printf of doubles)
  are arguments, universally quantified in the theorems.

Files: `X_model.v` (definitions only), `X_proofs.v` (lemmas), `X_props.v`
(property statements, each proved by a lemma, with its non-vacuity example and
`Print Assumptions`).

## 2. Plan per property

| id | model | proof |
|----|-------|-------|
| C01 | `spvm_hash.c` as table of chains of (hash, key, value) | invariant + refinement to association map, induction on operations |
| C02 | `spvm_list.c` as storage list + length + capacity | refinement to sequences |
| C03 | `spvm_string_buffer.c` as block + length + capacity; writes outside the block are UB | invariant length < capacity = block size; contents = concatenation |
| C04-C06 | `spvm_utf8.c` on byte lists | case analysis; spec is Unicode table 3-7, stated separately |
| C07 | `spvm_allocator.c` with live-block ghost set | invariant on operation sequences |
| C08-C13 | heap of objects with ref counts, weak back references, slots; assign/weaken/leave_scope/... | global invariant, induction on histories |
| C14-C15 | integer macros of `spvm_implement.h` with UB outcome | Z arithmetic; UB cases refuted with witnesses |
| C16 | element access macros | direct |
| C17 | string comparison macro | order laws |
| C18 | lookup switch binary search | loop invariant on a sorted table |
| C19 | `%d`, `strtoll` modelled on digit lists | induction on digits |
| C20 | boxing macros | direct |
| C21, C22, C53 | `spvm_opcode_builder.c` control flow: statements to opcodes with its patch stacks; the VM loop on these opcodes; call protocol of `spvm_api.c` | (1) the patched code equals code with symbolic targets resolved, (2) forward/backward simulation of a structured semantics, induction on fuel, statement, iteration |
| C23 | frame offset computation | arithmetic |
| C24-C26 | `spvm_type.c`, `spvm_basic_type.c`, `spvm_api_type.c` over an arbitrary hierarchy | case analysis, induction on the parent chain |
| C28-C29 | `Hash.spvm` | as C01, with arbitrary hash function; weak flag in entries |
| C30-C32 | `IntList.spvm`, `List.spvm`, `StringBuffer.spvm` | refinement to sequences, exception safety |
| C33-C34 | `Sort.spvm` merge sort in a state+exception monad, arbitrary stateful comparator | well-founded induction on the range |
| C35-C37, C40, C44-C46, C50 | `Fn.spvm`, `Fn.c` method by method | induction on strings |
| C38-C39, C43 | `Array.c/.spvm`, `Fn.c` memory functions with byte-addressed blocks | arithmetic; refuted cases by witness |
| C41 | `Packer.spvm` | round trip on layouts; refuted claims by witness |
| C42 | `Format.spvm` | induction on the format |
| C27 | cast acceptance (`spvm_type.c`), choice of the instruction (`spvm_opcode_builder.c`), its execution (`spvm_implement.h`) | every chosen instruction is justified by the two types; execution preserves typing; refuted where the code checks nothing |
| C47 | binary search in the sorted method table, walk along the parents, call opcode, compile-time resolution incl. SUPER:: | loop invariant; induction on parent chain; override check |
| C54 | argument slots of caller and callee, run-time argument check, default values | widths agree by the override check; refuted where the overriding method requires more arguments |
| C48 | `shorten`, read-only flag | direct |
| C49 | `spvm_toke.c` literal scanning | induction on digits |
| C51 | register allocation of `spvm_check.c` (typed_var_index per block) | invariant over the block tree |
| C55-C57 | `spvm_precompile.c` against `spvm_vm.c`: one table per side of what is done for each opcode, the declarations with their name mangling, the literals; a small C semantics (labels, gotos, switch, literals, identifiers) | string combinatorics for the mangling; the tables agree by computation over all opcodes; simulation in both directions |
| C58 | the access checks of `spvm_check.c` for new, class variables, methods, fields; `allow`; the outmost class of anonymous classes | case analysis over C24's class relations; both directions; refuted for inherited fields and anonymous classes |
| C59 | the generated INIT method, its flag, the call depth, the loop over basic types; statements as a small language with calls, die, eval, loops | invariants over a big-step relation: a stack of running INIT methods with falling ranks |
| C60 | dump_recursive of `spvm_api.c` over a heap of objects | soundness against trees and their text by induction on fuel; termination by induction on the number of instances not shown yet and the rank of arrays |
| C61 | numeric expressions through `spvm_op.c`, `spvm_check.c`, `spvm_opcode_builder.c` to the instructions and their execution | induction over the expression: building and checking keep the by-value meaning; induction over the checked tree: temporaries and instructions compute it |
| C62 | `Fn.spvm` callback methods, sorts and options over an arbitrary program state; `Array.spvm` copies of objects and strings | induction over the relation of calls; the list filled by a method satisfies the list invariant of C35 |
| C63 | the trees of statements and logical operators, their code (the compiler of C61 inside the control flow of C22) and the machine on it | simulation: induction over the tree, with a relation between the exits of a statement and the jumps of its code; loops by induction over the number of iterations, both ways |
| C64 | the loop of the tokenizer over the source text with its flags between calls; the literals are those of C49 | a grammar of layout, tokens and strings (`Lex_spec.v`); each piece of layout is one turn of the loop, each token one or two; mutual induction over texts and string bodies |
| C65 | the queue of use statements, the search for class files, the checks of names and texts, and the rollback of a failed compilation; the parser of one file is an argument | invariant of the queue: every statement met is in it, or done, or being loaded; the number of classes still to load decreases; the set of wanted statements is an inductive closure |
| C66 | the trees of statements and expressions with the blocks and variables that the compiler adds, and the walk with its stacks of declarations and of scopes | the walk is a run over events with nested scopes; a simulation removes the added variables and the blocks without a scope; the search of the stack is the last declaration whose block is open |
| C67 | the automaton of `yyparse` with its tables as generated; the specification has the rules of `spvm_yacc.y`, the precedence lines and which operand stands where | a certificate gives each state its items; a checker, evaluated by the kernel, compares tables, certificate and precedence rules for every state and token; the general theorem (a checked automaton accepts exactly the readings) is by induction on trees and runs |
| C68 | methods as the statements that have to do with exceptions; the exception variable as a flat string that grows while an exception is on its way; `SPVM_API_die` with its buffers | the specification has structured exceptions (ID, message, places); by induction on the run, the flat string is the text of the structured exception wherever it can be read |
| C69 | enumeration items with the shared counter of the compiler | the value of item n is given by the last written value before it; induction on the items and on the enumerations before |
| C70 | the scan, the checks and the strtod of version statements | the accepted strings are a grammar of digits and groups; the string is split at its first non-digit |
| C71 | anonymous methods: names of classes, fields, the inserted statements and the expression that creates the object | the built operators are equivalent to a big-step semantics of the source (induction over nested expressions, temporaries outside the used numbers are kept); the inserted statements are computed in closed form |
| C72 | special assignments, increments and array initializations as the parser expands them, over an arbitrary state with places that are read and written | the expansion is equivalent to a direct evaluator of the source (induction over nested expressions, temporaries outside the used numbers are kept); the accepted expressions are characterised |
| C73 | the classes Immutable::*List with a client that holds arrays, strings and lists | invariant over all histories: no list's array and no list's string as mutable is held by the client; what lists show is kept by every step |
| C74 | default comparator, equality checkers and cloner over arbitrary objects and methods; points; `Array->equals` | case analysis; loop invariant of `equals_object`; composition with C34 (sort) and C17 (strings); injectivity of the text of points |
| C75 | `assign_object` cut at the boundaries of the lock, any number of threads, any schedule | invariant of all steps: counts are exact, freed objects are held by nobody, what runs DESTROY is known; a weight that every step of a release decreases |
| C52 | field merging and offsets of `spvm_check.c`, field access macros | induction over the fields; histories |

Where the code does not satisfy the property, the model keeps the code's
behaviour, the violation is proved (`..._refuted`, with the concrete witness)
and the strongest true version is proved under the name `..._partial`.

## 3. Trusted base

* The kernel of Coq 8.16.1 and the parts of its standard library used
  (`ZArith`, `List`, `Permutation`, `String`, `Lia`, and for C44 `Reals`), and
  Flocq (definitions and lemmas about IEEE 754 only; it adds no axioms).
* `Print Assumptions` follows every theorem in the `*_props.v` files.  It prints
  "Closed under the global context" for all of them but the theorems about
  `Fn->rand` (`C44_rand_range`, `C44_rand_seed`, `C44_rand_any_max`): they
  speak of reals and list the axioms of the standard library's reals,
  `ClassicalDedekindReals.sig_not_dec`, `ClassicalDedekindReals.sig_forall_dec`,
  `FunctionalExtensionality.functional_extensionality_dep` and
  `Classical_Prop.classic`.  Nothing else is assumed.  (Tools which list every
  parameter of the loaded library modules also show
  `Coq.ssr.ssrunder.Under_rel.*` and `Rdefinitions.RbaseSymbolsImpl.*`; these
  are the opaque module members of the standard library, not used as axioms by
  any theorem.)
* That the model says what the C and SPVM code does.  Every definition cites
  the file and lines it models; what it leaves out is said there and below.
* The environment: two's complement machine integers, 64-bit pointers,
  little-endian (only for `Packer`, `Fn` endian methods), ASCII execution
  character set, IEEE 754 doubles; libc functions `strtoll`, `strtoull`,
  `memcpy`, `memmove`, `memcmp`.  `strtod`, `strtof`,
  `snprintf` of floating point numbers, the hash function, the comparators,
  the allocator's success or failure, the random seed, and destructors are
  arguments of the model over which the theorems quantify.

### What is modelled

| code in /repo (lib/SPVM/...) | files |
|---|---|
| `Builder/src/spvm_hash.c`, `spvm_list.c`, `spvm_string_buffer.c`, `spvm_allocator.c`, `spvm_utf8.c` (all functions) | `NHash`, `NList`, `NSbuf`, `Alloc`, `Utf8` |
| `Builder/src/spvm_api.c`: reference counts, weak references, assignment, scope leaving, object creation, the dump operator, casts, call protocol, `isa`, method lookup | `Mem*`, `Elem`, `Str`, `Box`, `Dump`, `Cast`, `Dispatch` |
| `Builder/include/spvm_implement.h`: arithmetic, shifts, comparison, conversions between integers, strings and numbers, array and field access, string instructions, boxing, casts | `VmArith`, `VmConv`, `Elem`, `StrCmp`, `Str`, `Box`, `Fields` |
| `Builder/src/spvm_vm.c`: the loop for the instructions of control flow, frames, switches, calls | `Code`, `Frame`, `Switch`, `Dispatch` |
| `Builder/src/spvm_opcode_builder.c`: statements (if, loops, switch, eval, return, next, last, die), scopes, operands of logical operators, casts, calls | `Code*`, `Switch`, `Cast`, `Dispatch` |
| `Builder/src/spvm_check.c`: register allocation, frame sizes, field merging and offsets, inheritance and override checks, switch tables, access control, INIT methods | `Frame`, `Fields`, `Type`, `Dispatch`, `Switch`, `Access`, `Init` |
| `Builder/src/spvm_type.c`, `spvm_basic_type.c`, `spvm_api_type.c`, `spvm_api_basic_type.c`: assignability, casts, has_interface, isa, the cache | `Type*`, `TypeCache`, `Cast` |
| `Builder/src/spvm_toke.c`: numeric, string, character and single-quoted literals (830-1993, 2942-3121) | `Toke*` |
| `Builder/src/spvm_precompile.c`: declarations, the statements for every opcode; `Builder/src/spvm_vm.c`: the arguments of every opcode | `Precomp*` |
| numeric operators, assignment, `op=`, `++`, casts and sequences in `Builder/src/spvm_op.c`, `spvm_check.c` and `spvm_opcode_builder.c` | `Expr` |
| `Fn.spvm` 1186-1377, 1579-1687 (grep, map, map_expand, sort, sort_asc, sort_desc, merge_options, check_option_names, slice of objects), `Array.spvm` copy_object, copy_string, copy_any_numeric (the copy inside sort_asc/sort_desc is taken by elements) | `FnHof` |
| `spvm_op.c` 1544-1575, 1851-2092, 2822-3029, `spvm_check.c` 1402-1423, 1614-1657, 2408-2432, `spvm_opcode_builder.c` 4083-4152 (statements, conditions and logical operators of numeric methods) | `Prog_model.v` |
| `spvm_toke.c` 34-2604, 2914-3164 (tokens, layout, directives; not the class loading at the end of a file) | `Lex_model.v` |
| `spvm_toke.c` 2606-2912, `spvm_compiler.c` 154-465 (class loading, class files, rollback), `spvm_op.c` 257-336 (the type of a class) | `Load_model.v` |
| `spvm_check.c` 965-1011, 1371-1388, 2927-3073 (scopes and variable names), `spvm_op.c` 1460-1637, 1762-2092, 2822-3046 (trees of statements) | `Names_model.v` |
| `spvm_yacc.c` (tables and the loop of `yyparse`; not the actions of the rules) | `YaccTables_model.v`, `Yacc_model.v` |
| `spvm_api.c` 2641-2670, 3130-3197, 3692-3708, 4739-4897, 5192-5226 (exceptions), `spvm_op.c` 3062-3085, `spvm_opcode_builder.c` 314-329, 763-787 | `Exc_model.v` |
| `spvm_op.c` 421-497, 1092-1203, `spvm_check.c` 3151-3162 | `Decl_model.v` |
| `spvm_op.c` 840-852, 1520-1548, 1586-1727, 2116-2170, `spvm_yacc.y` 481-500, 565-585 (types and attributes left out) | `Anon_model.v` |
| `spvm_op.c` 2178-2292, 2505-2820, 3031-3046, 3306-3315 (types left out) | `Special_model.v` |
| `Immutable/*.spvm`, `spvm_api.c` 3667-3672, 4432-4466 | `Immutable_model.v` |
| `Comparator.spvm`, `EqualityChecker.spvm`, `EqualityChecker/Address.spvm`, `Cloner.spvm`, `Point.spvm`, `Point3D.spvm`, `Array.spvm` 466-563, 1335-1399; `Fn.spvm` 1549-1556 (copy of arrays of objects) | `Equal_model.v`, `EqualCopy_model.v` |
| `spvm_api.c` 5136-5310 with threads | `Threads_model.v` |
| `Array.spvm/.c`, `Hash.spvm`, `List.spvm`, `IntList.spvm`, `StringBuffer.spvm`, `Sort.spvm`, `Format.spvm/.c`, `Packer.spvm`, `Packer/Specifier.spvm` | same names |
| `Fn.c` 498-546 (to_double, to_float; the grammar of strtod is modelled, rounding to the floating point type is a parameter) | `FnFloat` |
| `Array.spvm` 1432-1475 (shuffle_any_numeric, over the memory of `FnMem`) | `Shuffle` |
| `Fn.spvm`, `Fn.c` (strings, characters, splitting, numbers, UTF-8, memory, endianness, random numbers) | `Fn*` |

### What is not modelled

* The actions of the rules of `spvm_yacc.y`, the construction of the syntax tree in `spvm_op.c`, the type
  checker beyond the judgements above, `spvm_dumper.c`, the prologue and
  epilogue of precompiled functions.
* Threads, except for the assignability cache (C26) and reference counting without
  weak references (C75), which are modelled with any number of threads interleaved
  at the boundaries of their locks.
* `Native/*`, `Sync/Mutex`, file and I/O code, and the Perl side
  (`Builder.pm`, the exchange API).
* Allocation failure of `calloc` (the code does not handle it either), except
  where the allocator is a parameter.

## 4. Findings

Each is proved: the faithful model of the code violates the property.

* **Reference counts.** A DESTROY that stores into a field of an object being
  destroyed leaves a counted reference in freed memory, a dangling back
  reference or a leak (`C08_store_into_dying_refuted`, `C09_...`, `C11_...`).
* **Control flow.** A nested eval block patches the pending exits of the outer
  one (`C22_nested_eval_refuted`); temporaries of logical operands are released
  by a later block (`C22_operand_scope_refuted`); temporaries of a loop
  condition overflow the mortal stack (`C22_loop_condition_refuted`).
* **Calls.** An overriding method with more required arguments reads a stale
  slot (`C54_stale_argument_refuted`); a constant string reaches a mutable
  string parameter (`C54_mutable_argument_refuted`); static and SUPER calls
  accept an undefined invocant (`C47_static_call_undef_refuted`); methods
  inherited from a numeric class cannot be called on a subclass
  (`C47_numeric_subclass_call_refuted`).
* **Types and casts.** Interface assignment is unsound, `has_interface` and the
  inheritance check may not terminate, the assignability cache ignores flags
  (C24-C26 `_refuted`); `(mutable string)$any` is unchecked, `(int[])5` has no
  instruction, `(A[][])$i` and `(Int)$int` are rejected (C27 `_refuted`).
* **Fields.** Redeclaring an inherited field loses the fields after it
  (`C52_all_fields_refuted`).
* **Arithmetic and sizes.** INT_MIN / -1, shifts and overflow are undefined
  (C15), array sizes are computed in 32 bits (C16), frames too (C23).
* **Strings.** Undefined arrays converted to strings crash (C19), read-only
  strings stay writable through variables of type mutable string (C48).
* **Class library.** Array ranges (C38, C43), Hash weak marks and re-entrant
  destructors (C28, C29), five in List (C31), IntList, StringBuffer and Sort
  overflows (C30, C32, C33), Fn memory ranges (C39, C40), Fn strings (C35-C37),
  numbers (C50), UTF-8 (C45, C46), Format (C42), Packer (C41).
* **Tokenizer.** `"$x}"` makes the compiler loop forever, the end of the source
  is read past, malformed hexadecimal literals are accepted, sums without
  spaces are one literal (C49 `_refuted`).

* **Precompilation.** A field `x_` used before `x`, classes `A_::B` and
  `A::_B`, or a class whose name ends with `basic_type` make the generated C
  function refer to an undeclared variable or to another class (C55, C56
  `_refuted`); a file name with a backslash or a double quote is written raw
  into a C string (C57 `_refuted`).

* **Access control.** An anonymous method in a sub class may use a private
  field of the super class; a class may not use its own private field through
  a variable of a sub class; declaring the field again, or allowing a class, in
  a sub class opens the private field of the super class; an allow statement
  does not serve anonymous methods; a private overriding method can be called
  through a variable of the super class (C58 `_refuted`).
* **INIT.** In a cycle of classes the statements of one run before those it
  depends on; an INIT block that died is not run again and the next start
  succeeds; a chain of 1001 classes does not start (C59 `_refuted`).
* **Dump.** The dump of an array of objects that contains itself does not end
  (`C60_cyclic_array_refuted`); a byte and its escape sequence are shown alike
  (`C60_string_refuted`).
* **Expressions.** An operand that is a variable is read when the operator
  runs, not when the operand is evaluated: `$x + ($x = 5)` is 10 whatever `$x`
  was, `++$x + ++$x` adds the last value twice
  (`C61_operand_order_refuted`); `$y = (1, ++$x)` does not assign `$y`
  (`C61_dropped_assignment_refuted`).
* **Callback methods of Fn (C62).** `Fn->sort` sorts its argument and returns
  the elements in the old order, the opposite of what is documented
  (`C62_sort_returns_the_old_order`, `C62_sort_refuted`). `Fn->map` stores the
  answers in an array of the type of the argument, so a callback that changes
  the type makes it throw (`C62_map_type_refuted`).
- Tokens (C64): `<` and `>` swallow the next character (`spvm_toke.c` 808, 867), so `$x<2` loses
  the 2 and a line terminator behind them is not counted (`C64_less_refuted`); the keyword `scalar`
  does the same (2443, `C64_scalar_refuted`). A line terminator in a character literal and the line
  of a file or lib directive are not counted (`C64_character_refuted`,
  `C64_directive_lines_refuted`). An unclosed file or lib directive at the end is read beyond the
  source (`C64_directive_end_refuted`). `#line 5-3` is accepted (`C64_line_directive_refuted`), and so
  are variables without a name (`C64_empty_name_refuted`); `=cut` ends a POD in the middle of a line
  (`C64_pod_refuted`); a here document at the very end loses its `;` (`C64_document_end_refuted`).
- **A corrected class file is not read again** (`C65_corrected_file_refuted`). A failed
  compilation deletes the texts of the classes whose type was added
  (`spvm_compiler.c` 252-266). After a syntax error no type was added, so the bad text
  stays and is found before the corrected file.
- **A failed compilation loses given texts** (`C65_given_file_refuted`). The same loop
  deletes texts that were set by the user before the compilation.
- **A 0 byte ends a class file** (`C65_nul_byte_refuted`). The length is taken with
  `strlen` (`spvm_toke.c` 2795); what follows is neither checked nor compiled.

* **The depth of a source text is limited** (C67). The stack of the parser ends at 10000 entries
  (`spvm_yacc.c`, `YYMAXDEPTH`). A text with a reading that nests deeper, for example 10000 times `!`
  before an operand, is reported as `memory exhausted` (`C67_depth_refuted`).
* **`{}` is not an empty block where an operand may stand** (C67). In a list of statements the tokens
  `{` `}` are read as an empty array, which needs a `;` after it. A bare `{}` in a method body
  is a syntax error (`C67_empty_block_ex`).

* **`die` with a message that is undef at run time reads through a null pointer** (C68). The documented
  message is `Error`; the code replaces only the literal `undef` (`spvm_op.c` 3064). For a variable
  that is undef, `SPVM_API_new_stack_trace_no_mortal` reads the length of a null object
  (`spvm_api.c` 3150; `C68_undef_refuted`).
* **`die` with the error ID 0 does not throw** (C68). The ID is any int operand; 0 is the value for
  no error, so the program goes on after the `die` (`C68_zero_refuted`).
* **Methods at a call depth of more than 100 leave no line in the stack trace** (C68;
  `C68_depth_refuted`).
* **The format of a native message is cut at 255 bytes before it is expanded** (C68). If a
  conversion is cut off, the `%s` of the place takes the argument of that conversion, which
  may be an integer (`spvm_api.c` 2647-2661; `C68_format_refuted`). Texts are cut at 511 bytes.

* **An enumeration item with the greatest int overflows the counter of the compiler** (C69), also if it is the
  last item: the counter is an `int32_t` that is incremented after each item (`spvm_op.c`, SPVM_OP_build_enumeration_item;
  `C69_overflow_refuted`).

* **Array->shuffle_any_numeric calls memcpy with equal ranges** (C43) whenever an element is exchanged with itself
  (`Array.spvm` 1454), which the C standard leaves undefined (`C43_shuffle_any_numeric_refuted`); where memcpy with
  equal ranges changes nothing, the result is the permutation of shuffle_object.
* **to_double and to_float give 0 for the empty string** (C50), as the integer functions do
  (`C50_to_double_empty_refuted`).

* **The buffer for the class name of an anonymous method is too small** (C71): it has 31 bytes more than the name of
  the class, but needs 18 and the digits of line and column (`spvm_op.c` 1670-1674). A line directive that gives a
  line of ten digits and a method at column 1000 or later overflow it (`C71_class_name_refuted`).
* **`$x : TYPE = OPERAND` ends the process unless the operand is a variable** (C71), though it is documented for
  every operator: an assert requires a variable (`spvm_op.c` 1713; `C71_operand_refuted`).
* Line directives can give two anonymous methods of a class the same line and column, and so the same class name; the
  second one is reported as a redeclaration.

* **`$@ .= TEXT`, `++$@` and the like crash the compiler** (C72), though the comment on
  `SPVM_OP_build_special_assign` lists `++$@`: the operator of the exception variable has no `uv.var`, and
  `SPVM_OP_clone_op_var` (`spvm_op.c` 2665, 3308) reads its name (`C72_exception_variable_refuted`).
* **`$objects->[$i]{x} += RIGHT` may read one object and write another** (C72): array and index are kept, but the
  element is read again for the update; if RIGHT replaces the element, the sum goes into the new object
  (`C72_same_object_refuted`).

* **`Immutable::DoubleList` is not immutable** (C73): `to_array` returns `$array`, the array of the list, where the
  other classes return `$new_array` (`Immutable/DoubleList.spvm` 70); assigning to its elements changes the list
  (`C73_double_list_refuted`).
* **`Immutable::StringList->new` crashes for an array with undef** (C73): `make_read_only` reads the type of undef
  (`StringList.spvm` 27, `spvm_api.c` 3668, 4142; `C73_undef_refuted`).
* The strings of an immutable list can be changed through `(mutable string)(object)$string`, a cast that checks
  nothing (C27; `C73_cast_refuted`).

* **`Array->equals` compares floating point arrays by bytes** (C74): `[0.0]` and `[-0.0]` differ and arrays with NaN are
  equal, the opposite of `equals_double` (`Array.spvm` 1387; `C74_double_refuted`). For arrays of 2^31 bytes or more the
  product of size and length overflows (`C74_large_refuted`).
* **Points of different classes** (C74): the default equality checker says that a `Point` equals a `Point3D` with the
  same x and y, and throws if the two are given in the other order (`C74_mixed_points_refuted`).

* **The source of an assignment is read before the lock** (C75): if another thread releases the object between the
  read and `assign_object`, the count of a freed object is incremented (`C75_late_store_refuted`). The other theorems
  of C75 are about schedules in which the read and the first block of `assign_object` are one step.
* **DESTROY can run more than once** (C75): an object that is stored by its DESTROY survives with its fields cleared,
  and DESTROY is called again at the next release (`C75_destroy_once_refuted`).

## 5. Tests with wrong programs

`seeded/LOG.jsonl` records edits of the model (wrong boundary, missed case,
swapped argument, dropped update) and the theorems that no longer prove.
Where a theorem survived an edit that falsifies its claim it was tightened;
where the edit does not change the behaviour this is said in the line.
