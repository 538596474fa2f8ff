{"id": "C01", "title": "Compiler symbol tables behave as finite maps", "statement": "After any sequence of insertions into a native symbol table, looking a name up returns the value of the most recent insertion under exactly that name (names compared by length and bytes), and NULL when the name was never inserted; growth of the table never changes any answer.", "quantifier": "every finite sequence of set/get operations, every name (any bytes, any length), every initial capacity, every collision pattern", "why_tests_cant": "which names collide and when rehashing happens depends on the whole insertion history; tests touch a few names", "anchors": ["lib/SPVM/Builder/src/spvm_hash.c: SPVM_HASH_new, SPVM_HASH_set, SPVM_HASH_get, SPVM_HASH_rehash, SPVM_HASH_calc_hash_value"]}
{"id": "C02", "title": "Native lists behave as sequences", "statement": "push, unshift, pop, shift, get, set and clear on a native list have exactly the effect of the corresponding operation on a mathematical sequence; growing the storage never loses, duplicates or reorders an element and no slot outside the storage is touched.", "quantifier": "every sequence of operations and every initial capacity", "why_tests_cant": "the growth point depends on the operation history", "anchors": ["lib/SPVM/Builder/src/spvm_list.c: SPVM_LIST_push, SPVM_LIST_unshift, SPVM_LIST_pop, SPVM_LIST_shift, SPVM_LIST_get, SPVM_LIST_set, SPVM_LIST_clear, SPVM_LIST_maybe_extend"]}
{"id": "C03", "title": "Native string buffer appends exactly and in bounds", "statement": "The contents of a native string buffer are the concatenation, in order, of everything appended; every returned id is the offset at which that piece starts; and, as long as the total stays below 2^30 bytes, no append writes outside the allocated block.", "quantifier": "every sequence of appends of any byte strings/numbers and every initial capacity", "why_tests_cant": "the capacity doubling pattern depends on the history of lengths", "anchors": ["lib/SPVM/Builder/src/spvm_string_buffer.c: SPVM_STRING_BUFFER_add, SPVM_STRING_BUFFER_add_len, SPVM_STRING_BUFFER_add_len_nullstr, SPVM_STRING_BUFFER_add_hex_char, SPVM_STRING_BUFFER_add_int, SPVM_STRING_BUFFER_add_long, SPVM_STRING_BUFFER_maybe_extend"]}
{"id": "C04", "title": "UTF-8 encode then decode is the identity", "statement": "For every Unicode scalar value, encoding it as UTF-8 and decoding the result (followed by any bytes) yields the same code point and consumes exactly the bytes the encoder produced; for non-scalar values other than surrogates the encoder produces nothing.", "quantifier": "all 2^32 int arguments and all following byte strings", "why_tests_cant": "1.1 million scalar values times arbitrary context", "anchors": ["lib/SPVM/Builder/src/spvm_utf8.c: SPVM_UTF8_iterate, SPVM_UTF8_convert_unicode_codepoint_to_utf8_character", "lib/SPVM/Fn.c: SPVM__Fn__get_code_point"]}
{"id": "C05", "title": "The UTF-8 decoder accepts exactly well-formed UTF-8", "statement": "The decoder reports a character exactly when the bytes at the position start with a well-formed UTF-8 sequence in the sense of the Unicode standard (no overlong forms, no surrogates, nothing above 0x10FFFF), and then the reported length and code point are those of that sequence; otherwise it reports an error.", "quantifier": "all byte strings", "why_tests_cant": "infinitely many byte strings", "anchors": ["lib/SPVM/Builder/src/spvm_utf8.c: SPVM_UTF8_iterate"]}
{"id": "C06", "title": "Reading code points from a string never leaves the string", "statement": "Fetching the code point at any offset of any string reads no byte after the terminating NUL, and gives the same result as decoding the suffix of the string in isolation, although the implementation passes the total length rather than the remaining length to the decoder.", "quantifier": "all strings and all offsets within the string", "why_tests_cant": "an over-read returns a correct-looking answer in a test", "anchors": ["lib/SPVM/Fn.c: SPVM__Fn__get_code_point", "lib/SPVM/Builder/src/spvm_utf8.c: SPVM_UTF8_iterate"]}
{"id": "C07", "title": "Allocator accounting", "statement": "In every history of allocations and frees the allocator's counters equal the number of temporary and permanent blocks that are currently live; freeing the allocator releases every permanent block exactly once and leaves no temporary block when each was freed by its owner.", "quantifier": "every sequence of allocate/free operations", "why_tests_cant": "leaks and double frees are history properties", "anchors": ["lib/SPVM/Builder/src/spvm_allocator.c"]}
{"id": "C08", "title": "Reference counts are exact", "statement": "In every reachable state of the object heap the reference count of each live object equals the number of strong references to it held by variables, fields, array elements, class variables and the temporary (mortal) stacks.", "quantifier": "every history of object creation, assignment, field/element store, weaken/unweaken, scope entry/exit and deallocation cascades, over any object graph", "why_tests_cant": "the state space of object graphs and histories is unbounded", "anchors": ["lib/SPVM/Builder/src/spvm_api.c: SPVM_API_assign_object, SPVM_API_inc_ref_count, SPVM_API_dec_ref_count, SPVM_API_push_mortal, SPVM_API_leave_scope, SPVM_API_weaken, SPVM_API_unweaken"]}
{"id": "C09", "title": "No use after free", "statement": "Every reference a program can follow (strong or weak, from a variable, field, element or mortal slot) leads to a live object; an object is released only when no strong reference to it remains.", "quantifier": "every history as in C08", "why_tests_cant": "use-after-free shows only on particular histories and allocator behaviour", "anchors": ["lib/SPVM/Builder/src/spvm_api.c: SPVM_API_assign_object, SPVM_API_free_weaken_backrefs"]}
{"id": "C10", "title": "Weak references are cleared when their target dies", "statement": "Weakening a field removes its contribution to the reference count; when the target object is released every weak field that pointed to it reads undef from that moment; unweakening restores a strong reference; isweak reports exactly the fields currently weakened.", "quantifier": "every history of weaken/unweaken/assign/release", "why_tests_cant": "depends on the history of back-reference list updates", "anchors": ["lib/SPVM/Builder/src/spvm_api.c: SPVM_API_weaken, SPVM_API_unweaken, SPVM_API_isweak, SPVM_API_free_weaken_backrefs, SPVM_API_assign_object"]}
{"id": "C11", "title": "Acyclic garbage is reclaimed immediately and completely", "statement": "When the last reference into an object graph without strong cycles is dropped, every object of it that is not otherwise referenced has been released when the drop returns, and nothing else is.", "quantifier": "every finite object graph and every order of drops", "why_tests_cant": "graphs are unbounded", "anchors": ["lib/SPVM/Builder/src/spvm_api.c: SPVM_API_assign_object"]}
{"id": "C12", "title": "DESTROY runs exactly once per released object", "statement": "For every object whose class has a destructor, the destructor is run exactly once, when its last strong reference disappears, and before any of its fields is released.", "quantifier": "every history without resurrection of the dying object by its destructor", "why_tests_cant": "order and multiplicity over all histories", "anchors": ["lib/SPVM/Builder/src/spvm_api.c: SPVM_API_assign_object"]}
{"id": "C13", "title": "Leaving a scope releases exactly what the scope registered", "statement": "Leaving a native scope drops one reference for each object registered since the matching enter and leaves everything registered before untouched; nested scopes compose; growing the mortal stack loses nothing.", "quantifier": "every nesting and every number of registered objects", "why_tests_cant": "growth and nesting are unbounded", "anchors": ["lib/SPVM/Builder/src/spvm_api.c: SPVM_API_enter_scope, SPVM_API_push_mortal, SPVM_API_leave_scope"]}
{"id": "C14", "title": "Integer division and remainder", "statement": "Dividing by zero throws; otherwise division truncates toward zero, and remainder has the sign of the divisor and satisfies a = q*b + r with floor quotient. Unsigned variants agree with arithmetic on the unsigned readings of the operands.", "quantifier": "all pairs of int (and long) operands other than (MIN, -1)", "why_tests_cant": "2^64 (2^128) pairs", "anchors": ["lib/SPVM/Builder/include/spvm_implement.h: SPVM_IMPLEMENT_DIVIDE_INT, SPVM_IMPLEMENT_MODULO_INT, SPVM_IMPLEMENT_DIVIDE_UNSIGNED_INT, SPVM_IMPLEMENT_MODULO_UNSIGNED_INT (and LONG)"]}
{"id": "C15", "title": "Integer operators never have undefined behaviour", "statement": "For every pair of operands the integer operators either throw an exception or give a defined result (wrap-around on overflow, shift counts in range).", "quantifier": "all operand pairs of every integer operator", "why_tests_cant": "only special operands are affected", "anchors": ["lib/SPVM/Builder/include/spvm_implement.h: SPVM_IMPLEMENT_DIVIDE_INT, SPVM_IMPLEMENT_MODULO_INT, SPVM_IMPLEMENT_LEFT_SHIFT_INT, SPVM_IMPLEMENT_ADD_INT"]}
{"id": "C16", "title": "Element access is memory safe", "statement": "Reading or writing an array (or string) element through an undefined array or an index outside 0..length-1 throws and changes nothing; otherwise it reads or changes exactly the addressed element (for multi-numeric arrays exactly the addressed field of it).", "quantifier": "all arrays, indices and element values", "why_tests_cant": "unbounded arrays and all 2^32 indices", "anchors": ["lib/SPVM/Builder/include/spvm_implement.h: SPVM_IMPLEMENT_GET_ARRAY_ELEMENT, SPVM_IMPLEMENT_SET_ARRAY_ELEMENT, SPVM_IMPLEMENT_GET_MULNUM_ARRAY_FIELD"]}
{"id": "C17", "title": "String comparison is a total order", "statement": "eq, ne, lt, le, gt, ge and cmp on strings agree with one total order: bytewise lexicographic order with a proper prefix first and undef before every string.", "quantifier": "all pairs/triples of strings including undef", "why_tests_cant": "infinitely many strings", "anchors": ["lib/SPVM/Builder/include/spvm_implement.h: SPVM_IMPLEMENT_STRING_COMPARISON_OP"]}
{"id": "C18", "title": "switch selects the matching case", "statement": "Executing a switch on value v continues at the case whose constant equals v if there is one and at the default otherwise.", "quantifier": "every set of distinct case constants and every value", "why_tests_cant": "unbounded numbers of cases; binary search boundaries", "anchors": ["lib/SPVM/Builder/src/spvm_vm.c: SPVM_VM_call_method LOOKUP_SWITCH", "lib/SPVM/Builder/src/spvm_opcode_builder.c"]}
{"id": "C19", "title": "Integer to string to integer round trip", "statement": "Converting a byte, short, int or long to a string and back gives the original number; converting a decimal string that is out of range for byte/short/int saturates.", "quantifier": "all values of each type", "why_tests_cant": "2^64 values", "anchors": ["lib/SPVM/Builder/include/spvm_implement.h: SPVM_IMPLEMENT_TYPE_CONVERSION_INT_TO_STRING, SPVM_IMPLEMENT_TYPE_CONVERSION_STRING_TO_INT"]}
{"id": "C20", "title": "Boxing and unboxing", "statement": "Unboxing what was boxed gives the original number; unboxing undef or an object of any other exact type throws.", "quantifier": "all values and all object types", "why_tests_cant": "all type pairs and values", "anchors": ["lib/SPVM/Builder/include/spvm_implement.h: SPVM_IMPLEMENT_TYPE_CONVERSION_INT_TO_INT_OBJECT, SPVM_IMPLEMENT_TYPE_CONVERSION_INT_OBJECT_TO_INT"]}
{"id": "C21", "title": "Call depth is bounded and restored", "statement": "A method call at the maximal depth throws instead of executing; and after every call, whether it returns or throws, the depth counter is what it was before.", "quantifier": "every call tree, every exception point", "why_tests_cant": "all call trees", "anchors": ["lib/SPVM/Builder/src/spvm_api.c: SPVM_API_call_method_common"]}
{"id": "C22", "title": "Exceptions reach the innermost eval and scopes are unwound", "statement": "When an exception is thrown, execution continues after the innermost enclosing eval of the call chain, with the error id and message of that exception, and the objects registered by the frames that were abandoned have been released exactly once.", "quantifier": "every program and every throwing point", "why_tests_cant": "all programs", "anchors": ["lib/SPVM/Builder/src/spvm_vm.c: SPVM_VM_call_method", "lib/SPVM/Builder/include/spvm_implement.h"]}
{"id": "C23", "title": "Frame layout", "statement": "The regions of a method's call frame used for doubles, longs, floats, ints, shorts, bytes, mortals, objects and references do not overlap, are properly aligned and lie inside the allocated block.", "quantifier": "every combination of register counts", "why_tests_cant": "all combinations of counts", "anchors": ["lib/SPVM/Builder/src/spvm_vm.c: SPVM_VM_call_method (call stack allocation)"]}
{"id": "C24", "title": "Implicit assignment is sound", "statement": "If the compiler lets a value of object type S be assigned to a variable of object type T without a run-time check and without conversion, every object allowed in an S variable is allowed in a T variable (its dynamic type passes the isa check for T).", "quantifier": "all type pairs over every class hierarchy", "why_tests_cant": "all hierarchies", "anchors": ["lib/SPVM/Builder/src/spvm_type.c: SPVM_TYPE_satisfy_assignment_requirement", "lib/SPVM/Builder/src/spvm_api_type.c: SPVM_API_TYPE_can_assign", "lib/SPVM/Builder/src/spvm_api.c: SPVM_API_isa"]}
{"id": "C25", "title": "isa is a preorder that agrees with inheritance", "statement": "isa between class types holds exactly for equal classes and ancestors; it is reflexive and transitive, and antisymmetric for a well-formed hierarchy; an object is an instance of an interface exactly when its class lists the interface.", "quantifier": "all class hierarchies", "why_tests_cant": "all hierarchies", "anchors": ["lib/SPVM/Builder/src/spvm_basic_type.c: SPVM_BASIC_TYPE_is_super_class, SPVM_BASIC_TYPE_has_interface", "lib/SPVM/Builder/src/spvm_api.c: SPVM_API_isa"]}
{"id": "C26", "title": "The assignability cache is transparent", "statement": "The cached answer to an assignability question is always the answer the uncached check would give, in any order of questions.", "quantifier": "all sequences of queries", "why_tests_cant": "depends on query history", "anchors": ["lib/SPVM/Builder/src/spvm_api_type.c: SPVM_API_TYPE_can_assign"]}
{"id": "C27", "title": "Casts accepted at compile time", "statement": "A cast between reference types that the compiler accepts either converts the value or performs a run-time type check, so that afterwards the value has the target type.", "quantifier": "all type pairs", "why_tests_cant": "all pairs and hierarchies", "anchors": ["lib/SPVM/Builder/src/spvm_type.c: SPVM_TYPE_satisfy_cast_requirement"]}
{"id": "C28", "title": "Hash behaves as a finite map", "statement": "In every history, Hash get returns the value last set under that key (undef if none), exists and delete agree with it, keys lists each present key exactly once and keys_length is their number, whatever the hash function and seed.", "quantifier": "every sequence of set/get/exists/delete/keys/copy operations, all keys, all hash functions", "why_tests_cant": "collision and rehash history", "anchors": ["lib/SPVM/Hash.spvm: set, get, exists, delete, keys, values, to_array, copy, _rehash, _set_to_container", "lib/SPVM/Hash.c"]}
{"id": "C29", "title": "Weakening of a Hash value survives", "statement": "After weaken(key) the value stays weak until it is overwritten, unweakened or deleted.", "quantifier": "every history of other operations in between", "why_tests_cant": "only histories that rehash are affected", "anchors": ["lib/SPVM/Hash.spvm: weaken, isweak, _rehash"]}
{"id": "C30", "title": "IntList (and the other numeric lists) behave as sequences", "statement": "Every operation of the numeric list classes has the effect of the corresponding sequence operation, throws exactly for the documented argument errors, and a throwing operation leaves the list unchanged.", "quantifier": "every sequence of operations and all arguments", "why_tests_cant": "history and all arguments", "anchors": ["lib/SPVM/IntList.spvm"]}
{"id": "C31", "title": "List behaves as a sequence of objects", "statement": "Every operation of List has the effect of the corresponding sequence operation (ring-buffer layout is invisible), throws exactly for the documented argument errors, and a throwing operation leaves the list unchanged.", "quantifier": "every sequence of operations and all arguments, including undef elements and elements of a wrong type", "why_tests_cant": "ring-buffer positions depend on the history", "anchors": ["lib/SPVM/List.spvm", "lib/SPVM/StringList.spvm", "lib/SPVM/Array.spvm: memcpy_object_address"]}
{"id": "C32", "title": "StringBuffer behaves as a growable byte string", "statement": "push, push_char, replace, reserve, set, set_length and to_string have the effect of the corresponding operation on a byte string; exceptions leave the buffer unchanged; growing with set_length fills with NUL bytes.", "quantifier": "every sequence of operations and all arguments", "why_tests_cant": "history", "anchors": ["lib/SPVM/StringBuffer.spvm"]}
{"id": "C33", "title": "Sorting permutes only the requested range", "statement": "After a sort call, even one aborted by an exception of the comparator or one with an inconsistent or stateful comparator, the elements outside the range are untouched; after normal return the range is a permutation of its previous contents; argument errors leave the array unchanged.", "quantifier": "all arrays, ranges, comparators (including stateful and throwing ones)", "why_tests_cant": "all comparators and arrays", "anchors": ["lib/SPVM/Sort.spvm: sort_int, _sort_int, _merge_int, sort_object, sort_string and the other element types"]}
{"id": "C34", "title": "Sorting sorts, stably", "statement": "With a comparator that is a total preorder the result is in order and elements that compare equal keep their relative order.", "quantifier": "all arrays and all total preorders", "why_tests_cant": "all arrays and orders", "anchors": ["lib/SPVM/Sort.spvm"]}
{"id": "C35", "title": "split and join are inverse", "statement": "Joining with a separator what split returned for the same non-empty separator gives back the string; the pieces do not contain the separator (for a negative limit); with a positive limit there are at most that many pieces.", "quantifier": "all strings and separators", "why_tests_cant": "infinitely many strings", "anchors": ["lib/SPVM/Fn.spvm: split, join"]}
{"id": "C36", "title": "substr, index, rindex, contains", "statement": "index returns the least (rindex the greatest) offset in the searched range at which the substring occurs and -1 when there is none; substr returns exactly the addressed bytes; with a replacement, the string with that range replaced; otherwise exactly the documented exceptions.", "quantifier": "all strings and integer arguments", "why_tests_cant": "all arguments including extreme ones", "anchors": ["lib/SPVM/Fn.spvm: substr, index, rindex, contains"]}
{"id": "C37", "title": "Character-class and case functions", "statement": "Each is_* predicate holds for exactly the documented code points; lc/uc/lcfirst/ucfirst change exactly the ASCII letters they should; trim and chomp remove exactly the documented characters.", "quantifier": "all code points and strings", "why_tests_cant": "all code points and strings", "anchors": ["lib/SPVM/Fn.spvm: is_blank, is_alpha, lc, uc, lcfirst, ucfirst, trim, chomp"]}
{"id": "C38", "title": "Typed array copy is memory safe and exact", "statement": "Array copy/move functions either throw leaving the destination unchanged or copy exactly the given range (move correctly for overlapping ranges), never touching memory outside the arrays.", "quantifier": "all arrays, offsets and lengths (all ints)", "why_tests_cant": "extreme offsets", "anchors": ["lib/SPVM/Array.c: SPVM__Array__memcpy_int, SPVM__Array__memmove_int", "lib/SPVM/Array.spvm: memcpy_object_address, memmove_object_address, memset_int, copy_int"]}
{"id": "C39", "title": "Raw byte copy and compare are memory safe", "statement": "Fn memcpy, memmove and memcmp throw for every range that is not inside the data and otherwise copy/compare exactly the range.", "quantifier": "all data, offsets and lengths (all ints)", "why_tests_cant": "only negative and extreme arguments matter", "anchors": ["lib/SPVM/Fn.c: SPVM__Fn__memcpy, SPVM__Fn__memmove, SPVM__Fn__memcmp", "lib/SPVM/Fn.spvm: slice"]}
{"id": "C40", "title": "Endian conversion", "statement": "change_endian reverses exactly the addressed bytes, twice is the identity, and system/big/little conversions of the same range are mutually inverse.", "quantifier": "all strings, sizes and offsets", "why_tests_cant": "all arguments", "anchors": ["lib/SPVM/Fn.spvm: change_endian, big_endian_to_system_endian, system_endian_to_big_endian, reverse_inplace"]}
{"id": "C41", "title": "pack and unpack", "statement": "pack lays every element of an array out in the requested byte order; unpacking the packed bytes with the same template gives the objects back.", "quantifier": "all templates and all objects of matching types", "why_tests_cant": "all templates and values", "anchors": ["lib/SPVM/Packer.spvm: pack, unpack, _parse_template"]}
{"id": "C42", "title": "sprintf", "statement": "sprintf copies ordinary characters, turns %% into %, consumes one argument per specifier, pads to the width and never yields fewer than width characters; a missing argument or an unfinished specifier throws.", "quantifier": "all format strings and arguments", "why_tests_cant": "all formats", "anchors": ["lib/SPVM/Format.spvm: sprintf, _push_formatted_string_signed", "lib/SPVM/Format.c"]}
{"id": "C43", "title": "Array utilities", "statement": "copy and merge give the addressed elements and the concatenation; equals decides elementwise equality; shuffle permutes; repeat gives count copies in sequence.", "quantifier": "all arrays", "why_tests_cant": "all arrays", "anchors": ["lib/SPVM/Array.spvm: copy_int, merge_int, equals_int, shuffle_object, shuffle_any_numeric, repeat, repeat_string, memset_int"]}
{"id": "C44", "title": "Random numbers stay in range", "statement": "crand returns a number between 0 and RAND_MAX and is a function of the seed; rand is at least 0 and less than max.", "quantifier": "all 2^32 seeds", "why_tests_cant": "2^32 seeds and iterates", "anchors": ["lib/SPVM/Fn.spvm: crand, rand"]}
{"id": "C45", "title": "Code point utilities agree", "statement": "For every valid UTF-8 string utf8_length is the number of code points, to_code_points followed by chr on each and join is the identity, utf8_substr is the code point range; for invalid strings the documented behaviour occurs.", "quantifier": "all strings", "why_tests_cant": "all strings", "anchors": ["lib/SPVM/Fn.spvm: utf8_length, to_code_points, to_utf8_chars, utf8_substr, chr, ord"]}
{"id": "C46", "title": "tr", "statement": "tr maps exactly the code points of the pattern range, by their distance from the start of the range, and leaves all others.", "quantifier": "all strings and ranges", "why_tests_cant": "all arguments", "anchors": ["lib/SPVM/Fn.spvm: tr, _parse_range"]}
{"id": "C47", "title": "Instance method dispatch", "statement": "Calling an instance method on an object runs the definition in the nearest class on the path from the object's class to the root; an undefined invocant or a missing method throws.", "quantifier": "all hierarchies, all method names", "why_tests_cant": "all hierarchies", "anchors": ["lib/SPVM/Builder/src/spvm_api.c: SPVM_API_get_instance_method", "lib/SPVM/Builder/include/spvm_implement.h: SPVM_IMPLEMENT_CALL_INSTANCE_METHOD"]}
{"id": "C48", "title": "Strings stay NUL terminated and shorten only shortens", "statement": "shorten to a smaller length keeps the prefix and the string remains NUL terminated at its new length; other lengths change nothing; read-only strings cannot be modified through element assignment.", "quantifier": "all strings and lengths", "why_tests_cant": "all lengths", "anchors": ["lib/SPVM/Builder/src/spvm_api.c: SPVM_API_shorten, SPVM_API_make_read_only", "lib/SPVM/Builder/include/spvm_implement.h: SPVM_IMPLEMENT_MOVE_OBJECT_CHECK_READ_ONLY_STRING"]}
{"id": "C49", "title": "Numeric and string literals denote the right value", "statement": "The tokenizer gives each integer literal (decimal, hexadecimal, octal, binary, with underscores) its mathematical value and rejects those out of range; string escapes produce the documented bytes.", "quantifier": "all literals", "why_tests_cant": "infinitely many literals", "anchors": ["lib/SPVM/Builder/src/spvm_toke.c"]}
{"id": "C50", "title": "Parsing numbers from strings", "statement": "to_int and friends return the number written in the string and throw when the string is not entirely a number or is out of range.", "quantifier": "all strings and bases", "why_tests_cant": "all strings", "anchors": ["lib/SPVM/Fn.c: SPVM__Fn__to_int_with_base, SPVM__Fn__to_long_with_base, SPVM__Fn__to_double, SPVM__Fn__to_float", "lib/SPVM/Fn.spvm: hex"]}
{"id": "C51", "title": "Live variables never share registers", "statement": "The registers the compiler gives to the variables of a method are disjoint for any two variables whose scopes overlap: assigning to one never changes another, whatever their types and nesting.", "quantifier": "all methods, i.e. all nestings of blocks and all variable types and widths", "why_tests_cant": "the allocator reuses registers when blocks end, so a clash shows only for particular nestings of particular types", "anchors": ["lib/SPVM/Builder/src/spvm_check.c: SPVM_CHECK_get_typed_var_index, SPVM_CHECK_check_ast_typed_var_indexs", "lib/SPVM/Builder/src/spvm_vm.c"]}
{"id": "C52", "title": "Fields of an object are independent and inherited in place", "statement": "Every field declared in a class or its super classes exists in the objects of the class; writing one field never changes another, a field always reads back what was last written to it, and a field accessed through a super class is the same field as through the sub class. Access through undef throws.", "quantifier": "all class hierarchies, field types and orders, and all sequences of reads and writes through any class of the hierarchy", "why_tests_cant": "overlap or misalignment depends on the particular order and widths of the fields along the hierarchy", "anchors": ["lib/SPVM/Builder/src/spvm_check.c: SPVM_CHECK_check_field_offset, merge of fields", "lib/SPVM/Builder/include/spvm_implement.h: SPVM_IMPLEMENT_GET_FIELD_*, SPVM_IMPLEMENT_SET_FIELD_*"]}
{"id": "C53", "title": "Object variables are released exactly at the end of their scope", "statement": "The object variables (and temporaries) declared in a block are released when the block is left, in whatever way, and not before; the variables of the enclosing scopes stay alive; and the table that records them is never overrun, however often the block is executed.", "quantifier": "all methods, i.e. all nestings of blocks, loops, conditions, switch and eval, and all executions", "why_tests_cant": "a wrong nesting of scopes shows only for particular combinations of constructs, and an overrun only after enough iterations", "anchors": ["lib/SPVM/Builder/src/spvm_opcode_builder.c", "lib/SPVM/Builder/src/spvm_vm.c", "lib/SPVM/Builder/include/spvm_implement.h: SPVM_IMPLEMENT_PUSH_MORTAL, SPVM_IMPLEMENT_LEAVE_SCOPE", "lib/SPVM/Builder/src/spvm_check.c"]}
{"id": "C54", "title": "Arguments arrive in the parameters of the method that is run", "statement": "An instance method call that compiles runs the dispatched method with each passed value in the parameter of the same position, the declared default values in the parameters that were not passed, and only objects that are instances of the parameter types; otherwise it throws. No parameter ever gets an unrelated value.", "quantifier": "all programs, all signatures of overriding methods, all argument values and all previous contents of the value stack", "why_tests_cant": "the layout depends on the widths and the optional arguments of both the declared and the overriding method", "anchors": ["lib/SPVM/Builder/src/spvm_api.c: SPVM_API_call_method_common", "lib/SPVM/Builder/src/spvm_opcode_builder.c", "lib/SPVM/Builder/src/spvm_check.c", "lib/SPVM/Builder/src/spvm_type.c: SPVM_TYPE_satisfy_interface_method_requirement"]}
{"id": "C55", "title": "Names in precompiled methods mean what they mean in the source", "statement": "In the C function generated for a precompiled method, every class, field, class variable and method that the method uses is declared exactly once and refers to that very entity, however the names of the entities resemble each other.", "quantifier": "all sets and orders of classes and members a method uses, and all names the language accepts", "why_tests_cant": "a clash depends on two particular names being used in one method in a particular order", "anchors": ["lib/SPVM/Builder/src/spvm_precompile.c: SPVM_PRECOMPILE_build_method_source, SPVM_PRECOMPILE_contains_access_id, SPVM_PRECOMPILE_replace_colon_with_under_score, SPVM_PRECOMPILE_add_basic_type, SPVM_PRECOMPILE_add_field_offset, SPVM_PRECOMPILE_add_class_var, SPVM_PRECOMPILE_add_method"]}
{"id": "C56", "title": "A precompiled method does what the interpreter does", "statement": "The C function generated for a method with the precompile attribute compiles, and running it has the same effects and result as interpreting the method: the same operations with the same operands in the same order, the same branches, the same end.", "quantifier": "all methods, i.e. all sequences of all operation codes with all operands, all states and all executions, including those that do not end", "why_tests_cant": "there are about 400 operation codes with operands of many kinds, each implemented twice; tests run a few values of each", "anchors": ["lib/SPVM/Builder/src/spvm_precompile.c: SPVM_PRECOMPILE_build_method_source", "lib/SPVM/Builder/src/spvm_vm.c: SPVM_VM_call_method", "lib/SPVM/Builder/include/spvm_implement.h"]}
{"id": "C57", "title": "Constants survive precompilation", "statement": "Every integer, floating point and string constant, and every name and file name in a message, has in the precompiled method exactly the value it has in the source.", "quantifier": "all 8, 32 and 64 bit integers, all bit patterns of floating point numbers, all byte strings, all names", "why_tests_cant": "the limits of the types and strings with arbitrary bytes are infinitely many values that need escaping or special literals", "anchors": ["lib/SPVM/Builder/src/spvm_string_buffer.c: SPVM_STRING_BUFFER_add_int, SPVM_STRING_BUFFER_add_long, SPVM_STRING_BUFFER_add_byte, SPVM_STRING_BUFFER_add_hex_char", "lib/SPVM/Builder/src/spvm_precompile.c"]}
{"id": "C58", "title": "Access control", "statement": "A field, class variable, method or constructor declared private can be used only by the class that declares it, a protected one also by its sub classes, and either also by the classes that the declaring class allows; a public one by every class. Every use that is permitted compiles, every other is refused.", "quantifier": "all class hierarchies, all members with all access controls, all allow statements, all using classes including anonymous classes, all static types of the invocant", "why_tests_cant": "the verdict depends on four classes at once (the user, the static type of the invocant, the declaring class, the classes allowed), the number of combinations is unbounded", "anchors": ["lib/SPVM/Builder/src/spvm_check.c: SPVM_CHECK_can_access, SPVM_CHECK_check_call_method, SPVM_CHECK_check_field_access, SPVM_CHECK_check_ast_syntax", "lib/SPVM/Builder/src/spvm_op.c: SPVM_OP_is_allowed"]}
{"id": "C59", "title": "INIT blocks run once, after those of the classes they depend on", "statement": "The INIT blocks of a class run at most once, whoever calls the INIT method and however often; after a successful start they have run exactly once for each class; in programs whose class dependencies have no cycle they run after those of the parent class and of the used classes; and the start succeeds if no INIT block dies and the dependencies are less than 1000 deep.", "quantifier": "all programs (any class graph, any statements in the INIT blocks including explicit calls of INIT, eval and die), all sessions of starts, of later starts after more classes were loaded, and of method calls", "why_tests_cant": "the order is a property of every graph of classes and of every path through the INIT blocks, including ones that die half way", "anchors": ["lib/SPVM/Builder/src/spvm_op.c: SPVM_OP_build_class", "lib/SPVM/Builder/src/spvm_check.c: SPVM_CHECK_check_methods", "lib/SPVM/Builder/src/spvm_api.c: SPVM_API_call_init_methods, SPVM_API_call_method_common"]}
{"id": "C60", "title": "Dumping an object", "statement": "dump ends for every object in which no array contains itself other than through an instance of a class, whatever cycles of instances there are. Its text shows the object: undef, strings with the non-printable and invalid bytes escaped, numbers, the elements of arrays and the fields of instances with their names, indented by depth. The fields of an instance are shown at its first occurrence only, every later occurrence is a reference to it, and every reachable instance is shown. Nothing is read outside of a string.", "quantifier": "all heaps (any graph of objects, arrays of all dimensions and weak references), all byte strings, all numbers", "why_tests_cant": "object graphs have any shape and size, with cycles and sharing; strings contain any bytes, also cut-off UTF-8 at the end", "anchors": ["lib/SPVM/Builder/src/spvm_api.c: SPVM_API_dump, SPVM_API_dump_no_mortal, SPVM_API_dump_recursive", "lib/SPVM/Builder/src/spvm_utf8.c: SPVM_UTF8_iterate"]}
{"id": "C61", "title": "Numeric expressions", "statement": "An expression over numeric variables and literals (arithmetic, bit, shift and comparison operators, casts, assignment, op=, ++ and --, the sequence operator) compiles exactly when the documented rules give it a type. Running it converts operands and results as documented, gives the value of evaluating the operands from left to right, leaves every variable with the documented value, and throws or is undefined exactly when one of its operators is.", "quantifier": "all expressions of any size and nesting, all declarations of the variables, all values of the variables, any float and double arithmetic", "why_tests_cant": "expressions nest without bound and mix six types; temporaries, implicit casts and side effects interact in combinations no test suite enumerates", "anchors": ["lib/SPVM/Builder/src/spvm_op.c: SPVM_OP_build_special_assign, SPVM_OP_build_inc, SPVM_OP_build_assign", "lib/SPVM/Builder/src/spvm_check.c: SPVM_CHECK_check_ast_syntax, SPVM_CHECK_perform_binary_numeric_conversion, SPVM_CHECK_perform_integer_promotional_conversion, SPVM_CHECK_check_assign, SPVM_CHECK_check_ast_assign_unassigned_op_to_var", "lib/SPVM/Builder/src/spvm_opcode_builder.c: SPVM_OPCODE_BUILDER_build_opcodes, SPVM_OPCODE_BUILDER_get_typed_var_index", "lib/SPVM/Builder/include/spvm_implement.h: SPVM_IMPLEMENT_ADD_INT and the other operators"]}
{"id": "C62", "title": "Callback methods, sorted copies and options of Fn", "statement": "Fn->grep, map and map_expand call the callback once for each element in index order and return exactly the chosen elements, the answers, or the elements of all answers, in order; an exception of the callback ends them and is passed on. Fn->sort, sort_asc and sort_desc return a sorted copy and leave the argument alone. Fn->merge_options gives the options of both arguments in order. Fn->check_option_names returns exactly when all option names are available and otherwise names the first one that is not. Fn->slice of objects gives the addressed elements or throws.", "quantifier": "all arrays, all callbacks and comparators (they may have state, change the array and throw), all options and names", "why_tests_cant": "callbacks are arbitrary programs with side effects and arrays have any length; a test fixes a few callbacks and lengths", "anchors": ["lib/SPVM/Fn.spvm: grep, map, map_expand, sort, sort_asc, sort_desc, merge_options, check_option_names, slice", "lib/SPVM/Array.spvm: copy_object, copy_object_address, copy_string, copy_any_numeric"]}
{"id": "C63", "title": "Methods made of numeric statements do what the source says", "statement": "Take a method of numeric statements: numeric expressions, assignments, blocks, if/unless/elsif/else, while, for, next, last, return, and conditions with &&, || and !. It compiles exactly when every expression has a type, every assigned or returned value can be assigned, and next and last are inside loops. Running the compiled method from given values of the variables ends exactly when the source ends, with the same returned value or the same exception message: && and || evaluate their right operand only when the left one does not decide, and yield the condition value of the operand that decides; ! yields 1 or 0; next in a for loop runs its update; a method that reaches its end returns 0. (Assumed of the expressions: no right operand changes a variable that is the left operand, and no sequence node is lost; C61 shows that the compiler breaks these cases.)", "quantifier": "all nestings of these statements and conditions, all operand types and values, all numbers of iterations, including executions that never end", "why_tests_cant": "programs nest without bound and loops run any number of times; a test runs a few programs", "anchors": ["lib/SPVM/Builder/src/spvm_op.c: SPVM_OP_build_if_statement, SPVM_OP_build_while_statement, SPVM_OP_build_for_statement, SPVM_OP_build_logical_and, SPVM_OP_build_logical_or, SPVM_OP_build_logical_not", "lib/SPVM/Builder/src/spvm_check.c: condition evaluation, return, next, last", "lib/SPVM/Builder/src/spvm_opcode_builder.c", "lib/SPVM/Builder/src/spvm_vm.c: SPVM_VM_call_method"]}
{"id": "C64", "title": "Source text is split into the documented tokens, each at its line and file", "statement": "Take a source text made of layout (spaces, line terminators, comments, POD, line, file and lib directives) and tokens: operators (always the longest that fits), keywords, names, variables, integer, character, single-quoted and double-quoted literals with variables inside, here documents, __FILE__, __LINE__ and __END__. The compiler reads exactly this list of tokens. A keyword behind an arrow, behind method, behind has or in a field access is a name, and a word in front of => is a string. A variable in a double-quoted literal is the same as the concatenation of the parts. Each token gets the number of line terminators before it, plus 1 or as set by the last line directive, and the file set by the last file directive.", "quantifier": "all source texts up to the size limit, and all nestings of strings, variables, comments and directives in them", "why_tests_cant": "the texts are infinitely many, and what a character means depends on everything before it in the file", "anchors": ["lib/SPVM/Builder/src/spvm_toke.c: SPVM_yylex, SPVM_TOKE_increment_current_line, SPVM_TOKE_parse_line_directive, SPVM_TOKE_parse_file_directive, SPVM_TOKE_parse_lib_directive", "lib/SPVM/Document/Language/Tokenization.pm"]}
{"id": "C65", "title": "A compilation loads exactly the classes that are used, and all or nothing", "statement": "Compiling a class meets its use and require statements, those of the classes it loads, and so on. The class Foo::Bar is read from the text given to the compiler, or else from Foo/Bar.spvm in the first include directory that has it; its text must be UTF-8 with printable ASCII characters and spaces other than a carriage return, and it must define the class of that name. The compilation succeeds if and only if every statement that is met names a class that is loaded already, or one whose file is in order, or (require only) one without a file, and the later checks give no message. Then exactly these classes and the ones of their anonymous methods are added, each once. A failed compilation leaves the classes of the compiler as they were. (The texts are not left as they were: a file corrected after a syntax error is not read again, a given text of a loaded class is lost, and bytes behind a 0 in a file are not looked at.)", "quantifier": "all file systems, include directories, class texts and use graphs (with cycles, repetitions and requires), all histories of earlier compilations", "why_tests_cant": "the graph of use statements, the include directories and the order in which classes are met are unbounded; a failed compilation can stop at any of them", "anchors": ["lib/SPVM/Builder/src/spvm_toke.c: SPVM_TOKE_load_class_file", "lib/SPVM/Builder/src/spvm_compiler.c: SPVM_COMPILER_compile_common, SPVM_COMPILER_use, SPVM_COMPILER_add_basic_type, SPVM_COMPILER_set_class_file", "lib/SPVM/Builder/src/spvm_op.c: SPVM_OP_build_class"]}
{"id": "C66", "title": "A variable name means the innermost visible declaration", "statement": "In a method, $x refers to the last declaration of $x before it, in the order of execution, whose block has not ended (if, while, for and foreach statements are enclosed by a block of their own, a switch statement is not; the right side of an assignment comes before the left side). If there is none, $x is the class variable $x of the class, and $C::x that of the class C, which must exist and be accessible. The compiler accepts the variables of a method if and only if no name is declared twice in the same block, every name has a meaning, and no local variable has colons in its name; otherwise it reports the first offence. The variables that the compiler itself adds (for &&, ||, !, foreach, the return value) never meet the written ones or each other.", "quantifier": "all methods: any nesting of blocks, conditions, loops, switches and evals, any number of variables, any names, all class variables of all classes", "why_tests_cant": "shadowing depends on the nesting and the order of all declarations before a place, which is unbounded; added variables share the scopes with written ones", "anchors": ["lib/SPVM/Builder/src/spvm_check.c: SPVM_CHECK_check_ast_syntax (BLOCK and VAR), SPVM_CHECK_check_class_var_access", "lib/SPVM/Builder/src/spvm_op.c: SPVM_OP_build_method, SPVM_OP_build_if_statement, SPVM_OP_build_for_statement, SPVM_OP_build_foreach_statement, SPVM_OP_build_logical_and, SPVM_OP_build_logical_or, SPVM_OP_build_logical_not, SPVM_OP_attach_anon_method_fields"]}
{"id": "C67", "title": "A token list is read by the grammar and the precedence table, in one way", "statement": "The parser accepts the tokens of a source file if and only if they have a reading: a tree of the grammar's rules whose leaves are the tokens, in which an operator's operands respect the documented precedence and associativity, and in which the remaining choices (an else goes to the nearest if; { } at the start of an operand is an empty array; a name before [ is an array type where a type may stand) are the documented ones. There is at most one reading, and it is the tree that the parser builds. Otherwise the parser reports a syntax error. Parsing ends for every token list, and it never reads outside the parser's tables.", "quantifier": "all token lists of any length, all nesting depths of expressions, blocks and classes", "why_tests_cant": "the tables have about a thousand states; conflicts between rules that were settled silently show only on particular contexts of unbounded depth", "anchors": ["yacc/spvm_yacc.y: grammar and %left/%right/%nonassoc lines", "lib/SPVM/Builder/src/spvm_yacc.c: yyparse, yypact, yydefact, yypgoto, yydefgoto, yytable, yycheck, yyr1, yyr2, YYMAXDEPTH", "lib/SPVM/Document/Language/SyntaxParsing.pm: grammar, operator precedence"]}
{"id": "C68", "title": "An exception carries its message, its error ID and its stack trace to the place that catches it", "statement": "die throws with the given message (Error if it is missing or undef) and error ID. While the exception leaves methods, one line `Class->method at file line N` is added for each method that is not native, the innermost first; when an eval (or a native caller) catches it, $@ is the message followed by these lines and eval_error_id is the ID. $@ and eval_error_id are cleared at the start of an eval and otherwise changed by nothing else; an exception in DESTROY becomes a warning and changes neither the exception on its way nor $@. The message of a native method is its format with the arguments put in, followed by the place in the C source.", "quantifier": "all programs of methods with die, calls, evals, branches on $@ and eval_error_id, destructors and native methods; all messages, IDs, formats and arguments; all call chains", "why_tests_cant": "the text depends on the whole chain of calls and of rethrows; buffers and depth limits show only for particular lengths and depths", "anchors": ["lib/SPVM/Builder/src/spvm_api.c: SPVM_API_die, SPVM_API_new_stack_trace_no_mortal, SPVM_API_call_method_common, SPVM_API_call_method_native, call of DESTROY", "lib/SPVM/Builder/src/spvm_vm.c: GOTO_END_OF_EVAL_ON_EXCEPTION, GOTO_END_OF_METHOD_ON_EXCEPTION", "lib/SPVM/Builder/src/spvm_op.c: SPVM_OP_build_die", "lib/SPVM/Builder/src/spvm_opcode_builder.c: eval blocks, DIE"]}
{"id": "C69", "title": "Enumeration items have the documented values", "statement": "An enumeration item with a written value has that value; without one, the first item has 0 and every other item the value of the previous item plus 1. Values of one enumeration do not depend on the enumerations compiled before it. A written value that is not an int is a compilation error. A call of an item gives its value.", "quantifier": "all sequences of enumerations of a compilation, of all lengths, with all written values", "why_tests_cant": "the value of an item depends on all items before it, and the counter is shared by all enumerations of a compilation", "anchors": ["lib/SPVM/Builder/src/spvm_op.c: SPVM_OP_build_enumeration_item, SPVM_OP_build_enumeration", "lib/SPVM/Builder/src/spvm_check.c: enumeration method calls"]}
{"id": "C70", "title": "Exactly the documented version strings are accepted", "statement": "A class compiles with a version statement exactly if there is one only and its string is digits, or digits, a dot and one or more groups of three digits; then it is the version of the class. Everything else is a compilation error, and the check is defined for every string, also the empty one.", "quantifier": "all strings and all lists of version statements of a class", "why_tests_cant": "the accepted set is a language over all strings; tests show only members and non-members", "anchors": ["lib/SPVM/Builder/src/spvm_op.c: SPVM_OP_build_class (version declarations)"]}
{"id": "C71", "title": "Anonymous methods capture values when they are created", "statement": "An anonymous method expression gives a new object whose fields have the values of their operands, evaluated from left to right, also if anonymous methods are nested in operands; it changes no variable and no other object. In every call the invocant, the arguments and the captured variables have their values at the start of the block: a captured variable has the value its source had when the object was created, unless the field was assigned. Fields of one name, and arguments and captured variables of one name, are compilation errors. Anonymous methods at different places have different classes.", "quantifier": "all expressions with anonymous methods, all lists of fields and arguments, all values, heaps and calls, all places", "why_tests_cant": "nesting, lists of fields and the number of temporaries are unbounded, and temporaries of one expression could be mixed up with those of another", "anchors": ["lib/SPVM/Builder/src/spvm_op.c: SPVM_OP_build_anon_method, SPVM_OP_build_anon_method_field, SPVM_OP_attach_anon_method_fields, SPVM_OP_build_method, SPVM_OP_build_new", "yacc/spvm_yacc.y: anon_method, anon_method_field"]}
{"id": "C72", "title": "Special assignments, increments and array initializations evaluate their parts once and in order", "statement": "PLACE OP= RIGHT evaluates the operands of the place once, from left to right, then reads the old value, then evaluates the right operand, and writes the result of the operation to the same place; its value is the new value. PLACE++ and PLACE-- have the old value. [E1, ..., En] evaluates the elements once, from left to right, sets each when it is known, and gives a new array of length n; {K1 => V1, ...} is such an array of type object[] and must have an even number of elements, and no initialization may begin with undef. An exception in any part ends the expression after exactly the effects of the earlier parts. This holds however such expressions are nested.", "quantifier": "all nestings of assignments, special assignments, increments, array initializations and operators, all states and values, all operations with effects and exceptions", "why_tests_cant": "nestings are unbounded, and a temporary of an inner expression could be taken for one of an outer expression", "anchors": ["lib/SPVM/Builder/src/spvm_op.c: SPVM_OP_build_special_assign, SPVM_OP_build_inc, SPVM_OP_build_dec, SPVM_OP_build_array_init, SPVM_OP_build_assign, SPVM_OP_clone_op_var"]}
{"id": "C73", "title": "Immutable lists never change", "statement": "A list made by the method new of an Immutable:: list class shows, through length and get, the elements its array had when it was created, whatever is done later to that array, to its strings, to arrays from to_array, and to strings from get or to_array. new without an array gives an empty list, new_len a list of zeros or undef, and a negative length is an exception. get throws exactly for indexes out of range. to_array gives a new array with the elements of the list.", "quantifier": "all histories of operations of a client on lists, arrays and strings, all elements, all indexes", "why_tests_cant": "immutability speaks of every later operation through every reference; a test tries a few", "anchors": ["lib/SPVM/Immutable/IntList.spvm, ByteList.spvm, ShortList.spvm, LongList.spvm, FloatList.spvm, DoubleList.spvm, StringList.spvm: new, new_len, get, to_array", "lib/SPVM/Builder/src/spvm_api.c: SPVM_API_make_read_only, SPVM_API_copy_no_mortal"]}
{"id": "C74", "title": "Comparison, equality and copies of objects", "statement": "Comparator->default_comparator orders undef before objects and objects by their method cmp; sorting with it gives undef first and then the objects in order, stably. EqualityChecker->default_equality_checker says that undef equals undef only and asks the method eq for two objects; it is an equivalence when eq is. Objects of classes without the interface are refused. Array->equals is true exactly for two undefs, or for arrays of the same type and length with pairwise equal elements: strings by content, objects by the default checker, numbers by value, and everything by identity if shallow is given. Points of one class are equal exactly when their coordinates are, clone gives an equal point of the same class, and to_string determines the point.", "quantifier": "all objects and undef, all methods cmp, eq and clone, all arrays, all coordinates", "why_tests_cant": "orders and equivalences speak of all pairs and triples of objects, and equality of arrays of all contents", "anchors": ["lib/SPVM/Comparator.spvm: default_comparator", "lib/SPVM/EqualityChecker.spvm: default_equality_checker", "lib/SPVM/EqualityChecker/Address.spvm", "lib/SPVM/Cloner.spvm: default_cloner", "lib/SPVM/Point.spvm, lib/SPVM/Point3D.spvm", "lib/SPVM/Array.spvm: equals, equals_object, equals_string"]}
{"id": "C75", "title": "Reference counting with threads", "statement": "Whatever the threads of a program do and however they are interleaved at the lock of the runtime, no freed object is used, the reference count of an object is the number of the variables, fields and class variables that hold it and of its releases that are still running, an object is freed exactly when nothing holds it any more, it is freed once, and DESTROY was called before.", "quantifier": "all numbers of threads, all schedules of new objects, assignments and releases, all class layouts", "why_tests_cant": "tests see few of the interleavings, and a race shows itself only in some", "anchors": ["lib/SPVM/Builder/src/spvm_api.c: SPVM_API_assign_object, SPVM_API_inc_ref_count, SPVM_API_dec_ref_count", "lib/SPVM/Builder/src/spvm_mutex.c: SPVM_MUTEX_lock, SPVM_MUTEX_unlock"]}
