{
 "claims": [
  {
   "property": "C01",
   "status": "proved",
   "theorems": [
    "C01_symbol_table_is_a_map"
   ],
   "note": "Every history of at most 2^29 calls on a table of any initial capacity; the bound is where the 32-bit capacity stops overflowing."
  },
  {
   "property": "C02",
   "status": "proved",
   "theorems": [
    "C02_native_list_is_a_sequence",
    "C02_out_of_range_is_caught"
   ],
   "note": "Every history of fewer than 2^30 calls; the bound is where the 32-bit capacity stops overflowing."
  },
  {
   "property": "C03",
   "status": "proved",
   "theorems": [
    "C03_text_buffer_is_concatenation",
    "C03_decimal_text"
   ],
   "note": "Every history within the 32-bit buffer limits stated in the theorem."
  },
  {
   "property": "C04",
   "status": "proved",
   "theorems": [
    "C04_encode_decode",
    "C04_encoder_standard",
    "C04_encoder_rejects",
    "C04_surrogates_not_decoded"
   ],
   "note": ""
  },
  {
   "property": "C05",
   "status": "proved",
   "theorems": [
    "C05_decoder_exact",
    "C05_scalar_test"
   ],
   "note": ""
  },
  {
   "property": "C06",
   "status": "proved",
   "theorems": [
    "C06_get_code_point"
   ],
   "note": ""
  },
  {
   "property": "C07",
   "status": "proved",
   "theorems": [
    "C07_counts_exact",
    "C07_no_failure",
    "C07_destroy_frees_everything_once",
    "C07_permanent_size_zero_refuted"
   ],
   "note": "The refuted theorem records that a permanent block of size 0 breaks the accounting; the others exclude exactly that call."
  },
  {
   "property": "C08",
   "status": "partial",
   "theorems": [
    "C08_counts_exact_partial",
    "C08_memory_blocks_partial",
    "C08_counts_exact_plain",
    "C08_store_into_dying_refuted"
   ],
   "note": "For any DESTROY strategy, in every run in which no DESTROY stores an object into a field of an object whose fields are being released; unconditional when DESTROY methods leave references alone. In the excluded runs the property is false (refuted theorem). One thread; memory never runs out."
  },
  {
   "property": "C09",
   "status": "partial",
   "theorems": [
    "C09_no_use_after_free_partial",
    "C09_no_use_after_free_plain",
    "C09_store_into_dying_refuted"
   ],
   "note": "As C08; the refuted theorem is a use after free in the excluded runs."
  },
  {
   "property": "C10",
   "status": "partial",
   "theorems": [
    "C10_weaken_partial",
    "C10_unweaken_partial",
    "C10_weak_target_live_partial",
    "C10_weaken_last_plain",
    "C10_weak_fields_plain"
   ],
   "note": "As C08. The exact effect of each operation on all weak fields (C10_weak_fields_plain) is for programs whose DESTROY methods leave references alone."
  },
  {
   "property": "C11",
   "status": "partial",
   "theorems": [
    "C11_no_garbage_partial",
    "C11_drop_exact_plain",
    "C11_assign_exact_plain",
    "C11_leave_exact_plain",
    "C11_store_into_dying_refuted"
   ],
   "note": "As C08. The exact set of released objects (plain theorems) is for programs whose DESTROY methods leave references alone."
  },
  {
   "property": "C12",
   "status": "partial",
   "theorems": [
    "C12_destroy_once_partial"
   ],
   "note": "Histories without resurrection of the object and without stores into dying objects. The call of DESTROY is modelled as succeeding (it fails at the maximum call depth)."
  },
  {
   "property": "C13",
   "status": "partial",
   "theorems": [
    "C13_push_mortal_partial",
    "C13_leave_scope_partial",
    "C13_nested_scopes_partial",
    "C13_leave_scope_plain"
   ],
   "note": "As C08; the exact frame of leave_scope is for programs whose DESTROY methods leave references alone."
  },
  {
   "property": "C14",
   "status": "proved",
   "theorems": [
    "C14_divide",
    "C14_modulo",
    "C14_unsigned",
    "C14_spec_determined"
   ],
   "note": ""
  },
  {
   "property": "C15",
   "status": "partial",
   "theorems": [
    "C15_defined_partial",
    "C15_never_undefined_refuted",
    "C15_undefined_operators_refuted",
    "C15_compare"
   ],
   "note": "The property fails as stated: signed overflow in add, subtract, multiply and negate, INT_MIN / -1 and unmasked shift counts are undefined in C (refuted with witnesses). Proved: the exact set of operands for which each operator is defined, and its value there."
  },
  {
   "property": "C16",
   "status": "partial",
   "theorems": [
    "C16_numeric_array",
    "C16_undef",
    "C16_mulnum_array_partial",
    "C16_mulnum_array_refuted",
    "C16_length_refuted",
    "C16_object_array"
   ],
   "note": "Numeric and object arrays proved for every history. Multi-numeric arrays are proved when their byte size fits in int32; beyond that the allocation size overflows (refuted with a witness)."
  },
  {
   "property": "C17",
   "status": "proved",
   "theorems": [
    "C17_total_order",
    "C17_operators_agree"
   ],
   "note": ""
  },
  {
   "property": "C18",
   "status": "proved",
   "theorems": [
    "C18_switch"
   ],
   "note": ""
  },
  {
   "property": "C19",
   "status": "proved",
   "theorems": [
    "C19_string_to_int",
    "C19_int_to_string",
    "C19_decimal_unique",
    "C19_round_trip",
    "C19_no_number",
    "C19_byte_array_round_trip",
    "C19_undef_byte_array_refuted"
   ],
   "note": "string(byte[]) of an undefined array dereferences NULL (refuted)."
  },
  {
   "property": "C20",
   "status": "proved",
   "theorems": [
    "C20_round_trip",
    "C20_other",
    "C20_no_mix"
   ],
   "note": ""
  },
  {
   "property": "C21",
   "status": "proved",
   "theorems": [
    "C21_call_depth"
   ],
   "note": "For every program of arbitrary opcodes, not only compiled ones."
  },
  {
   "property": "C22",
   "status": "partial",
   "theorems": [
    "C22_control_flow_partial",
    "C22_eval_spec",
    "C22_nested_eval_refuted",
    "C22_operand_scope_refuted",
    "C22_loop_condition_refuted"
   ],
   "note": "The opcode builder (with its patching of jump targets) and the VM are proved to implement a structured semantics of if/loop/switch/eval/next/last/break/return/die/calls, in both directions of termination, for methods that satisfy three syntactic conditions (Code_spec.v: supported). Outside of them the code is wrong: three refutations. Expressions are abstract operations that may fail."
  },
  {
   "property": "C23",
   "status": "proved",
   "theorems": [
    "C23_frame_layout",
    "C23_bound_needed_refuted"
   ],
   "note": "For methods whose total frame size fits in int32; without that bound the size computation overflows (refuted)."
  },
  {
   "property": "C24",
   "status": "partial",
   "theorems": [
    "C24_assigned_value_partial",
    "C24_assignment_sound_partial",
    "C24_boxing_sound_partial",
    "C24_interface_sound_partial",
    "C24_interface_refuted",
    "C24_check_terminates_refuted"
   ],
   "note": "Assignments accepted without data conversion keep every variable an instance of its static type, for targets that are not interfaces, and for interfaces when overriding methods agree on optional arguments. Without that agreement the property is false (refuted), and the compiler's interface check does not terminate for some programs (refuted)."
  },
  {
   "property": "C25",
   "status": "partial",
   "theorems": [
    "C25_isa_is_instance",
    "C25_isa_partial_order",
    "C25_numeric_subclass_refuted",
    "C25_recursion_check_terminates_refuted"
   ],
   "note": "isa is exactly the declared relation (class chain, interfaces, any object and array rules) and a partial order on object types, for every program whose class relations satisfy what the compiler checks. Two refuted theorems: a class extending Int is not isa Int, and the compiler's own check for recursive inheritance does not terminate on some recursive programs."
  },
  {
   "property": "C26",
   "status": "partial",
   "theorems": [
    "C26_cache_is_transparent_partial",
    "C26_compiling_changes_no_answer",
    "C26_every_call_returns",
    "C26_flags_refuted"
   ],
   "note": "For every number of threads and every interleaving at the lock boundaries, with compilations adding basic types in between, for queries with flags 0 and at most 2^29 events. With the mutable flag the cached function answers differently from the check (refuted)."
  },
  {
   "property": "C27",
   "status": "partial",
   "theorems": [
    "C27_cast_partial",
    "C27_interface_cast_partial",
    "C27_reference_cast_is_a_check",
    "C27_accepted",
    "C27_any_to_mutable_refuted",
    "C27_array_from_scalar_refuted",
    "C27_interface_downcast_refuted",
    "C27_same_numeric_class_refuted"
   ],
   "note": "Every accepted cast to a type not built from an interface gives a value of the target type or throws; between object types it is exactly an instance check. Excluded, and refuted: (mutable string) of any object is not checked, an array type from a scalar of its basic type has no instruction, and the undef byte[] to string conversion (C19). To interface types under the soundness condition of C24."
  },
  {
   "property": "C28",
   "status": "proved",
   "theorems": [
    "C28_hash_is_a_map",
    "C28_new",
    "C28_new_rejects",
    "C28_copy",
    "C28_reentrant_destructor_refuted"
   ],
   "note": "For every hash function and every history of at most 2^29 calls. to_array is covered with Sort. The refuted theorem records that a destructor storing into the same Hash while being overwritten breaks the key count."
  },
  {
   "property": "C29",
   "status": "partial",
   "theorems": [
    "C29_weak_mark_refuted",
    "C29_weak_mark_partial"
   ],
   "note": "The full property is false of the code: growing the table drops weak marks (refuted theorem). Proved: histories without set."
  },
  {
   "property": "C30",
   "status": "proved",
   "theorems": [
    "C30_numeric_list_is_a_sequence",
    "C30_new_len",
    "C30_full_list_refuted"
   ],
   "note": "Generic in the element type. For results longer than 2^30-1 elements an exception that changes nothing is also allowed (capacity doubling overflows); nothing is claimed for results longer than INT32_MAX. Memory exhaustion is not modelled."
  },
  {
   "property": "C31",
   "status": "partial",
   "theorems": [
    "C31_list_is_a_sequence",
    "C31_new_len",
    "C31_throwing_push_refuted",
    "C31_insert_undef_refuted",
    "C31_removed_element_reappears_refuted",
    "C31_reserve_refuted",
    "C31_overflowing_replace_refuted"
   ],
   "note": "Histories with results up to 2^29 elements and capacities up to 2^30. The refuted theorems record five places where the code does not have the sequence semantics (wrong-type elements, insert of undef, removed elements reappearing, reserve on a rotated list, overflowing replace); everywhere else the outcomes are exactly those of the sequence."
  },
  {
   "property": "C32",
   "status": "partial",
   "theorems": [
    "C32_byte_string_partial",
    "C32_new_len",
    "C32_every_operation_partial",
    "C32_clone",
    "C32_cmp",
    "C32_cmp_undef",
    "C32_set_undef_refuted",
    "C32_set_length_refuted",
    "C32_push_overflow_refuted"
   ],
   "note": "Every history of operations whose sizes do not overflow an int. Two departures are part of the proved relation and refute the claim in full: set(undef) empties the buffer before it throws; set_length after a shortening replace may expose removed bytes. An overflowing offset + length in push is undefined behaviour (refuted). get_string_unsafe is not modelled."
  },
  {
   "property": "C33",
   "status": "proved",
   "theorems": [
    "C33_permutes_only_the_range",
    "C33_bad_arguments",
    "C33_overflowing_range_refuted",
    "C33_large_range_refuted"
   ],
   "note": "For ranges ending at or before index 2^30. The refuted theorems record 32-bit overflows of the range test and of the midpoint."
  },
  {
   "property": "C34",
   "status": "proved",
   "theorems": [
    "C34_sorted_and_stable",
    "C34_int_asc_desc"
   ],
   "note": "For ranges ending at or before index 2^30 (see C33_large_range_refuted)."
  },
  {
   "property": "C35",
   "status": "partial",
   "theorems": [
    "C35_split",
    "C35_pieces_unique",
    "C35_join_split",
    "C35_no_separator",
    "C35_limit",
    "C35_split_join",
    "C35_wrong_arguments",
    "C35_join",
    "C35_repeat",
    "C35_split_limit_0",
    "C35_default_limit_refuted",
    "C35_split_join_refuted"
   ],
   "note": "All strings and separators for limits other than 0 (joining: results up to 2^30 - 1 bytes). The limit is documented to default to -1 and not to be 0; it defaults to 0, and 0 drops empty strings at the end (refuted)."
  },
  {
   "property": "C36",
   "status": "partial",
   "theorems": [
    "C36_index",
    "C36_rindex",
    "C36_contains",
    "C36_undef",
    "C36_substr_partial",
    "C36_substr_replacement_partial",
    "C36_substr_overflow_refuted",
    "C36_equals_string_range_partial",
    "C36_equals_string_range_refuted"
   ],
   "note": "index, rindex and contains for all strings and ints. substr for all offsets and lengths whose sum is an int; a larger sum wraps around (refuted: substr(1, INT_MAX) is undefined behaviour). equals_string_range denies equal ranges when the second string is shorter than the end of the first range (refuted)."
  },
  {
   "property": "C37",
   "status": "partial",
   "theorems": [
    "C37_classes_partial",
    "C37_is_blank_refuted",
    "C37_is_blank_actual_refuted",
    "C37_code_point_case",
    "C37_lc_uc",
    "C37_first_partial",
    "C37_first_empty_refuted",
    "C37_trim",
    "C37_chomp",
    "C37_shorten_null_char",
    "C37_replace_chars_partial",
    "C37_replace_chars_refuted",
    "C37_undef"
   ],
   "note": "All classes but is_blank, which is wrong (refuted); lcfirst and ucfirst throw for the empty string (refuted); replace_chars never replaces bytes above 127 (refuted)."
  },
  {
   "property": "C38",
   "status": "partial",
   "theorems": [
    "C38_memcpy_exact",
    "C38_memmove_exact",
    "C38_undefined_arrays",
    "C38_overflowing_range_refuted",
    "C38_object_copy_frame",
    "C38_object_copy_exact",
    "C38_memset_exact",
    "C38_memset_frame",
    "C38_partial_write_refuted"
   ],
   "note": "The property as stated is false of the code when offset+length exceeds INT32_MAX (refuted theorems); proved for all other arguments."
  },
  {
   "property": "C39",
   "status": "partial",
   "theorems": [
    "C39_memmove_partial",
    "C39_memcpy_partial",
    "C39_memcmp_partial",
    "C39_slice_partial",
    "C39_memset_char",
    "C39_string_copies",
    "C39_negative_offset_refuted",
    "C39_sum_overflow_refuted",
    "C39_slice_negative_refuted"
   ],
   "note": "For offsets >= 0 and offset + length within int: throws exactly when a range is outside the data, otherwise copies or compares exactly the range. For negative offsets and overflowing sums the property is false (refuted). Slice of numeric arrays included."
  },
  {
   "property": "C40",
   "status": "proved",
   "theorems": [
    "C40_reverse_inplace",
    "C40_change_endian",
    "C40_involution",
    "C40_value",
    "C40_conversions_inverse",
    "C40_sum_overflow_refuted"
   ],
   "note": "For every string, size and offset whose sum is an int (an offset + size above the largest int is undefined behaviour, see C40_sum_overflow_refuted). Includes reverse_inplace for all numeric arrays."
  },
  {
   "property": "C41",
   "status": "partial",
   "theorems": [
    "C41_template_unique",
    "C41_packed_unique",
    "C41_pack_partial",
    "C41_template",
    "C41_undef",
    "C41_round_trip_partial",
    "C41_unpack_partial",
    "C41_unpack_hex_partial",
    "C41_big_endian_refuted",
    "C41_hex_star_refuted",
    "C41_hex_odd_refuted",
    "C41_hex_round_trip_refuted",
    "C41_star_middle_refuted",
    "C41_unpack_wrap_refuted"
   ],
   "note": "Partial because the code violates the property outside `handled`/`fits`: a big-endian array has only its first element converted (once per element), H*/h* drop half of the digits, an odd digit count is not cut, unpacking hex text drops leading zeros or throws, a wildcard in the middle cannot be read back, and size*length wraps in unpack. Each is a _refuted theorem. Sizes are bounded by StringBuffer's capacity (2^30-1 bytes). Machine assumed little-endian."
  },
  {
   "property": "C42",
   "status": "partial",
   "theorems": [
    "C42_sprintf_partial",
    "C42_padded",
    "C42_undef_format",
    "C42_undef_args",
    "C42_empty_string_refuted",
    "C42_string_width_refuted",
    "C42_zero_sign_refuted",
    "C42_long_double_refuted",
    "C42_width_overflow_refuted"
   ],
   "note": "Every format and all arguments, as a refinement of a grammar of formats; throws exactly when the format or the arguments do not match. Excluded and refuted: strings of which nothing is shown (throws), a precision shorter than the string together with a larger width (the width is ignored), floating point texts longer than the buffer (reads behind it), widths that are no ints. Zero padding goes before a minus sign (refuted). The texts snprintf makes of doubles are parameters."
  },
  {
   "property": "C43",
   "status": "partial",
   "theorems": [
    "C43_copy",
    "C43_merge",
    "C43_equals",
    "C43_equals_decides",
    "C43_shuffle",
    "C43_copy_object",
    "C43_copy_object_address",
    "C43_copy_string",
    "C43_copy_any_numeric",
    "C43_repeat_refuted",
    "C43_shuffle_any_numeric_partial",
    "C43_shuffle_any_numeric_std_partial",
    "C43_shuffle_any_numeric_refuted"
   ],
   "note": "repeat is refuted (it copies `count` elements `length` times). shuffle_any_numeric is undefined by the C standard when an element is exchanged with itself (memcpy with equal ranges, refuted); otherwise, and everywhere if such a memcpy changes nothing, it permutes."
  },
  {
   "property": "C44",
   "status": "proved",
   "theorems": [
    "C44_crand_range",
    "C44_rand_range",
    "C44_rand_seed",
    "C44_rand_any_max"
   ],
   "note": "All seeds. Double arithmetic is IEEE 754 binary64 with rounding to nearest even (Flocq); the theorems about rand use the axioms of the standard library reals."
  },
  {
   "property": "C45",
   "status": "partial",
   "theorems": [
    "C45_utf8_unique",
    "C45_to_code_points",
    "C45_utf8_length",
    "C45_to_utf8_chars",
    "C45_chr",
    "C45_ord",
    "C45_look_code_point",
    "C45_round_trip",
    "C45_utf8_substr_partial",
    "C45_utf8_substr_invalid_partial",
    "C45_utf8_substr_invalid_refuted",
    "C45_utf8_substr_overflow_refuted",
    "C45_undef"
   ],
   "note": "to_code_points, to_utf8_chars, utf8_length, chr, ord and the round trip are exact for every string. utf8_substr is proved for every valid string when offset + length is an int; the wrapped sum and invalid bytes behind the range are refuted (no exception, though documented)."
  },
  {
   "property": "C46",
   "status": "partial",
   "theorems": [
    "C46_tr_partial",
    "C46_long_range_refuted",
    "C46_undef"
   ],
   "note": "Exact for range texts of at most three characters; longer texts are accepted though documented to throw (refuted)."
  },
  {
   "property": "C47",
   "status": "partial",
   "theorems": [
    "C47_lookup",
    "C47_dispatch",
    "C47_accepted_call_is_found",
    "C47_super_call",
    "C47_static_call_undef_refuted",
    "C47_numeric_subclass_call_refuted"
   ],
   "note": "For every hierarchy the compiler accepts: the dispatched method is the nearest one, missing methods and undefined invocants throw, accepted calls are never 'not found' (except optional interface methods), SUPER:: starts above the static class. Refuted: a static call ($c->C::m, $c->SUPER::m) enters the method with an undefined invocant; methods inherited from Int etc. cannot be called."
  },
  {
   "property": "C48",
   "status": "partial",
   "theorems": [
    "C48_strings",
    "C48_shorten",
    "C48_read_only",
    "C48_literal",
    "C48_read_only_refuted",
    "C48_make_read_only_undef_refuted"
   ],
   "note": "For every program over string variables (creation, concat, element read/write, length, make_read_only, copy, shorten, is_read_only, assignment through the mutable check) the observable outcomes are those of the immutable/mutable string specification; read-only strings keep their bytes unless a mutable variable referred to them before make_read_only, and C48_read_only_refuted shows the faithful code violates the property in that case (the mutable variable still writes). C48_make_read_only_undef_refuted: make_read_only on undef dereferences NULL. Sizes stay below INT32_MAX."
  },
  {
   "property": "C49",
   "status": "partial",
   "theorems": [
    "C49_integer",
    "C49_integer_sound_partial",
    "C49_string",
    "C49_expansion",
    "C49_string_sound",
    "C49_character",
    "C49_character_sound",
    "C49_single",
    "C49_single_sound",
    "C49_hang_refuted",
    "C49_minimum_refuted",
    "C49_end_refuted",
    "C49_no_digits_refuted",
    "C49_hex_refuted",
    "C49_sum_refuted",
    "C49_exponent_refuted",
    "C49_arrow_refuted",
    "C49_unicode_refuted"
   ],
   "note": "Integer literals in the four notations with separators and suffix, double-quoted strings with all escapes and variables, character and single-quoted literals, in both directions (documented texts give the documented values; only they are accepted). Partial: two sorts of malformed integer texts are accepted (no digits behind the prefix; a strange character behind 0x), and the code violates the property in the ways the _refuted theorems show. strtof/strtod are parameters; floating point literals are covered only by the refutations. Literals shorter than 2^29 bytes."
  },
  {
   "property": "C50",
   "status": "partial",
   "theorems": [
    "C50_one_number",
    "C50_to_int_partial",
    "C50_to_long_partial",
    "C50_before_nul",
    "C50_undef",
    "C50_empty_refuted",
    "C50_nul_refuted",
    "C50_round_trip",
    "C50_hex",
    "C50_powi",
    "C50_powl_partial",
    "C50_powl_refuted",
    "C50_abs_partial",
    "C50_abs_refuted",
    "C50_to_double_partial",
    "C50_to_double_total",
    "C50_one_float",
    "C50_to_double_empty_refuted"
   ],
   "note": "Strings that are not empty and contain no NUL. The empty string gives 0 and the text after a NUL is ignored (refuted). powl does not return for an exponent above INT32_MAX, abs of the least int is negative (refuted). to_float and to_double: the accepted texts and the exact number they denote; rounding and ERANGE are a parameter."
  },
  {
   "property": "C51",
   "status": "proved",
   "theorems": [
    "C51_registers_disjoint",
    "C51_variables_apart"
   ],
   "note": "Every variable has width at least one register."
  },
  {
   "property": "C52",
   "status": "partial",
   "theorems": [
    "C52_redeclared_type",
    "C52_layout",
    "C52_inherited",
    "C52_fields_independent",
    "C52_all_fields_partial",
    "C52_all_fields_refuted"
   ],
   "note": "Layout, inheritance and independence proved for every class. That every declared field exists is false when a class redeclares a field of its super class (refuted): the fields declared after it are dropped. Proved for classes without redeclaration."
  },
  {
   "property": "C53",
   "status": "partial",
   "theorems": [
    "C22_control_flow_partial",
    "C53_block_scope",
    "C53_mortal_stack_size",
    "C22_operand_scope_refuted",
    "C22_loop_condition_refuted"
   ],
   "note": "Same restriction as C22."
  },
  {
   "property": "C54",
   "status": "partial",
   "theorems": [
    "C54_arguments_partial",
    "C54_no_optional",
    "C54_stale_argument_refuted",
    "C54_mutable_argument_refuted"
   ],
   "note": "Values, defaults and run-time type checks are right for every accepted dispatched call whose target does not require more arguments than are passed; that holds if the method found at compile time has no optional parameter. Otherwise the property is false: an overriding method with more required arguments reads a stale stack slot (refuted), and a mutable string parameter can receive a constant string (refuted)."
  },
  {
   "property": "C55",
   "status": "partial",
   "theorems": [
    "C55_identifiers_partial",
    "C55_identifiers_injective",
    "C55_trailing_underscore_refuted",
    "C55_clash_refuted",
    "C55_basic_type_refuted"
   ],
   "note": "Any list of uses whose names do not end with an underscore (nor have a part that does), in classes whose mangled name does not end with basic_type. The tokenizer accepts the other names too; for them the property is false (refuted)."
  },
  {
   "property": "C56",
   "status": "partial",
   "theorems": [
    "C56_precompiled_method_partial",
    "C56_names_refuted"
   ],
   "note": "All 394 emitted opcodes, all operands, all methods with good names (C55) and a file name without quote, backslash, newline, question mark. Both directions, all outcomes. The SPVM_IMPLEMENT_* macros are shared by both sides and are a parameter; prologue and epilogue of the function are not modelled. The tables of what each side does for an opcode were extracted from the two C files."
  },
  {
   "property": "C57",
   "status": "partial",
   "theorems": [
    "C57_int",
    "C57_long",
    "C57_byte",
    "C57_string",
    "C57_plain_partial",
    "C57_file_name_refuted",
    "C57_quote_refuted"
   ],
   "note": "Integers of all sizes, string constants with all bytes, floating point constants as the integers of their bits; names. A file name with a backslash or a double quote is written into the C source raw (refuted)."
  },
  {
   "property": "C58",
   "status": "partial",
   "theorems": [
    "C58_new_partial",
    "C58_ordinary",
    "C58_class_variables_partial",
    "C58_class_methods_partial",
    "C58_instance_methods_partial",
    "C58_own_fields_partial",
    "C58_fields_sound_partial",
    "C58_fields_complete_partial",
    "C58_anonymous_refuted",
    "C58_own_private_refuted",
    "C58_redeclared_refuted",
    "C58_allow_inherited_refuted",
    "C58_allow_anonymous_refuted",
    "C58_override_refuted"
   ],
   "note": "new, class variables, class methods, instance methods and fields: accepted only if permitted, and permitted ones accepted, with the exceptions that the _refuted theorems show (anonymous methods with allow, inherited fields). Static instance calls (SUPER::m) are not modelled."
  },
  {
   "property": "C59",
   "status": "proved",
   "theorems": [
    "C59_once",
    "C59_all",
    "C59_order",
    "C59_complete",
    "C59_success",
    "C59_cycle_refuted",
    "C59_failed_refuted",
    "C59_deep_refuted"
   ],
   "note": "One thread, statements that end. The _refuted theorems show what is lost outside the hypotheses: with a cycle of classes, after an INIT block that died, with a chain of 1001 classes."
  },
  {
   "property": "C60",
   "status": "proved",
   "theorems": [
    "C60_dump",
    "C60_ends",
    "C60_cyclic_array_refuted",
    "C60_string_refuted",
    "C60_indent_refuted"
   ],
   "note": "%g and %p of the C library are parameters (%p injective on the objects of the heap). The string buffer and the C stack are unbounded. Arrays that contain themselves are excluded: for them the code does not end (refuted)."
  },
  {
   "property": "C61",
   "status": "partial",
   "theorems": [
    "C61_accept",
    "C61_value_partial",
    "C61_typed_partial",
    "C61_operand_order_refuted",
    "C61_dropped_assignment_refuted"
   ],
   "note": "Local variables only (no fields, elements or calls as operands); float and double arithmetic are parameters. Missing: expressions in which a right operand assigns a variable the left operand passes on, and assignments from a sequence that ends in a sequence, op=, ++ or --: there the property is false (refuted). A variable number stands for its register (C51)."
  },
  {
   "property": "C62",
   "status": "partial",
   "theorems": [
    "C62_calls_exist",
    "C62_grep",
    "C62_map",
    "C62_map_expand",
    "C62_pure_callbacks",
    "C62_undefined_arguments",
    "C62_sort_returns_the_old_order",
    "C62_sort_asc_desc",
    "C62_merge_options",
    "C62_check_option_names",
    "C62_slice_object",
    "C62_map_type_refuted",
    "C62_sort_refuted"
   ],
   "note": "sort is refuted: it returns the old order and sorts its argument. map throws for answers of another type than the array's elements (refuted). sort_asc/sort_desc for integral element types. Lengths below 2^29 (the capacity bound of List)."
  },
  {
   "property": "C63",
   "status": "proved",
   "theorems": [
    "C63_accepts",
    "C63_one_meaning",
    "C63_runs"
   ],
   "note": "Variables are declared in advance and logical operators are not operands of arithmetic operators (Prog_model.v). Floating point operations are arguments of the theorems."
  },
  {
   "property": "C64",
   "status": "partial",
   "theorems": [
    "C64_tokens_partial",
    "C64_unambiguous",
    "C64_less_refuted",
    "C64_scalar_refuted",
    "C64_character_refuted",
    "C64_directive_lines_refuted",
    "C64_directive_end_refuted",
    "C64_line_directive_refuted",
    "C64_empty_name_refuted",
    "C64_pod_refuted",
    "C64_document_end_refuted"
   ],
   "note": "Every text with a reading by the rules of Lex_spec.v is split into its tokens with their lines and files; the rules follow the code where the refuted theorems show that it differs from the documentation. Missing: floating point literals as tokens (their text is C49), and the errors for texts without a reading. The size of the source is bounded by a quarter of INT32_MAX."
  },
  {
   "property": "C65",
   "status": "partial",
   "theorems": [
    "C65_start",
    "C65_compile_partial",
    "C65_class_name",
    "C65_relative_path",
    "C65_source_text",
    "C65_corrected_file_refuted",
    "C65_given_file_refuted",
    "C65_nul_byte_refuted"
   ],
   "note": "The parser of one class file and the later checks are arguments. Hypotheses: no use statement names the class of an anonymous method, and finitely many classes are met. Partial because the texts kept by the compiler are not left as they were by a failed compilation (two refutations) and a 0 byte ends a file (refutation)."
  },
  {
   "property": "C66",
   "status": "partial",
   "theorems": [
    "C66_accepts_partial",
    "C66_meaning_partial",
    "C66_first_error_partial",
    "C66_added_variables_partial",
    "C66_unique"
   ],
   "note": "Proved for all methods made of variables, declarations, assignments, &&, ||, !, operators and calls whose operands are in the tree in source order, and all statements (blocks, if, unless, elsif, else, while, for, foreach, switch, eval), with $self, arguments and captured variables. Missing: array initialization, special assignment and the creation of an anonymous method, which add further temporary variables, and the message about types that are not detected. Hypotheses: names as the tokenizer gives them (a dot does not follow the dollar; colons come in pairs) and classes named apart."
  },
  {
   "property": "C67",
   "status": "partial",
   "theorems": [
    "C67_accepts_partial",
    "C67_unique",
    "C67_result_partial",
    "C67_safe",
    "C67_right_operand",
    "C67_left_operand",
    "C67_depth_refuted"
   ],
   "note": "Proved for all token lists: the parser accepts exactly the token lists that have a reading by the grammar and the precedence rules and whose tree needs fewer than 10000 stack entries, it builds that tree, readings are unique, parsing ends, and no table is read out of bounds. The property without the depth limit is false (C67_depth_refuted). The actions of the rules (the construction of operation trees) are not part of this model; the ones for statements are in C66 and for numeric expressions in C64."
  },
  {
   "property": "C68",
   "status": "partial",
   "theorems": [
    "C68_text_partial",
    "C68_thrown_partial",
    "C68_native_message_partial",
    "C68_long_format",
    "C68_undef_refuted",
    "C68_zero_refuted",
    "C68_depth_refuted",
    "C68_format_refuted"
   ],
   "note": "Proved for all programs and runs within these limits: error IDs are not 0, messages of die are not undef at run time, exceptions pass methods only at call depths of at most 100, texts are shorter than 2 GB, native formats have at most 255 bytes and native texts 511. Outside each of the first three limits and the format limit the property is false of the code (the refuted theorems). Native formats have the conversions s, d, i and percent."
  },
  {
   "property": "C69",
   "status": "partial",
   "theorems": [
    "C69_values_partial",
    "C69_accepts_partial",
    "C69_defined_partial",
    "C69_call",
    "C69_overflow_refuted"
   ],
   "note": "Proved for all enumerations whose values are below the greatest int; with the greatest int the counter of the compiler overflows, which is undefined (C69_overflow_refuted)."
  },
  {
   "property": "C70",
   "status": "proved",
   "theorems": [
    "C70_accepts",
    "C70_defined"
   ],
   "note": ""
  },
  {
   "property": "C71",
   "status": "partial",
   "theorems": [
    "C71_creation",
    "C71_fields",
    "C71_names",
    "C71_call",
    "C71_captures",
    "C71_class_names",
    "C71_class_name_partial",
    "C71_class_name_refuted",
    "C71_operand_refuted"
   ],
   "note": "Capturing is proved in full. The buffer for the class name overflows if line and column have more than 13 digits together (refuted), and the form with a variable and an operand that is not a variable fails an assert (refuted)."
  },
  {
   "property": "C72",
   "status": "partial",
   "theorems": [
    "C72_meaning",
    "C72_accepted",
    "C72_exception_variable_refuted",
    "C72_same_object_refuted"
   ],
   "note": "Proved for all nestings with ARRAY->[INDEX]{FIELD} as a place given by array and index. Read as the field of one object this place can change between the read and the write (refuted), and places that are the exception variable crash the compiler (refuted). Types and conversions are left out."
  },
  {
   "property": "C73",
   "status": "partial",
   "theorems": [
    "C73_numbers_new",
    "C73_numbers_undef",
    "C73_numbers_new_len",
    "C73_numbers_stay",
    "C73_numbers_to_array",
    "C73_texts_new",
    "C73_texts_new_len",
    "C73_texts_stay",
    "C73_texts_to_array",
    "C73_double_list_refuted",
    "C73_undef_refuted",
    "C73_cast_refuted"
   ],
   "note": "Proved in full for the lists of byte, short, int, long and float, and for lists of defined strings. Immutable::DoubleList hands out its array (refuted), Immutable::StringList->new crashes for undef (refuted), and the unchecked cast from object to mutable string changes strings of lists (refuted)."
  },
  {
   "property": "C74",
   "status": "partial",
   "theorems": [
    "C74_comparator",
    "C74_sort",
    "C74_not_implemented",
    "C74_checker",
    "C74_checker_equivalence",
    "C74_address_checker",
    "C74_equals_undef",
    "C74_equals_types",
    "C74_equals_strings",
    "C74_equals_objects",
    "C74_equals_numbers",
    "C74_equals_object_checker",
    "C74_double_refuted",
    "C74_large_refuted",
    "C74_points",
    "C74_points_made",
    "C74_mixed_points_refuted",
    "C74_cloner",
    "C74_copy_points",
    "C74_copy_shallow"
   ],
   "note": "Proved, with these exceptions in the code: numeric arrays are compared by bytes, which is not equality by value for float and double (refuted), arrays of 2^31 bytes or more overflow (refuted), and eq of points of different classes is not symmetric (refuted)."
  },
  {
   "property": "C75",
   "status": "partial",
   "theorems": [
    "C75_no_use_after_free",
    "C75_counts_exact",
    "C75_freed",
    "C75_destroy_before_free",
    "C75_destroy_once",
    "C75_releases_end",
    "C75_no_leak",
    "C75_late_store_refuted",
    "C75_destroy_once_refuted"
   ],
   "note": "Proved for schedules in which reading the source of an assignment and counting it are one step. The code reads before it takes the lock, and then a freed object can be used (refuted). Weak references are not in this model."
  }
 ]
}