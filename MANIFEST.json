{
 "claims": [
  {
   "property": "C01",
   "status": "proved",
   "theorems": [
    "C01_read_exact",
    "C01_read_little_endian",
    "C01_read_memory_safe"
   ],
   "note": "Reads and peeks return exactly the stored bytes, move the cursor by exactly their size or not at all, and never leave the buffer."
  },
  {
   "property": "C02",
   "status": "partial",
   "theorems": [
    "C02_read_array_exact_partial",
    "C02_peek_array_exact_partial",
    "C02_peek_array_exact_fit_refuted",
    "C02_read_array_overflow_refuted",
    "C02_overflow_partial",
    "C02_element_reads"
   ],
   "note": "The full claim is false: an array ending exactly at the end of the buffer cannot be peeked, and an overflowing byte count reads out of bounds in a release build (both refuted with witnesses). Proved for byte counts that fit usize and, for peeking, arrays that do not end at the end; C02_overflow_partial says what each build does for all other byte counts, and C02_element_reads that an array holds what reading its elements one by one gives."
  },
  {
   "property": "C03",
   "status": "proved",
   "theorems": [
    "C03_c_string",
    "C03_c_string_unterminated",
    "C03_fixed_string",
    "C03_c_string_past_end",
    "C03_utf8_validator"
   ],
   "note": "For a cursor inside the buffer; past the end the code panics (C03_c_string_past_end)."
  },
  {
   "property": "C04",
   "status": "proved",
   "theorems": [
    "C04_parse_pe_exact"
   ],
   "note": "Success iff the independent layout predicate holds, with exactly the stored field values."
  },
  {
   "property": "C05",
   "status": "proved",
   "theorems": [
    "C05_parse_pe_total"
   ],
   "note": "Every byte string gives a value or an error."
  },
  {
   "property": "C06",
   "status": "partial",
   "theorems": [
    "C06_resolve_rva_partial",
    "C06_resolve_rva_overflow_refuted",
    "C06_every_table",
    "C06_agreement"
   ],
   "note": "False when virtual address + raw size exceeds 32 bits (refuted). Proved for every other section table; C06_every_table says exactly what happens for every table, in both build profiles."
  },
  {
   "property": "C07",
   "status": "partial",
   "theorems": [
    "C07_root_total",
    "C07_metadata_total_partial",
    "C07_metadata_total_refuted",
    "C07_panics_exactly"
   ],
   "note": "The full claim is false (four hostile images in C07_metadata_total_refuted). C07_panics_exactly: exactly which byte strings make the read panic, in both profiles; every other one is read or refused. C07_metadata_total_partial is the sufficient condition in terms of the format; the root parser never panics."
  },
  {
   "property": "C08",
   "status": "proved",
   "theorems": [
    "C08_streams_located",
    "C08_image_round_trip",
    "C08_root_sound",
    "C08_read_exactly"
   ],
   "note": "Located by position for any version length, header order and optional #US; the tables clause goes through the reader of C26, and C08_image_round_trip combines the two."
  },
  {
   "property": "C09",
   "status": "partial",
   "theorems": [
    "C09_token_round_trip_partial",
    "C09_large_row_refuted"
   ],
   "note": "Round trip for every row number below 2^24, the width of the token's index; for every larger one it is refuted."
  },
  {
   "property": "C10",
   "status": "partial",
   "theorems": [
    "C10_no_entry_point",
    "C10_entry_point_partial",
    "C10_first_method_refuted",
    "C10_entry_point_refuted"
   ],
   "note": "False as stated: the entry point is the method of the row before the one in the header (C10_entry_point_partial, C10_entry_point_refuted), and images whose entry point is row 1 never load (C10_first_method_refuted). A header without entry point gives none."
  },
  {
   "property": "C11",
   "status": "proved",
   "theorems": [
    "C11_text_found",
    "C11_outside_is_none",
    "C11_unterminated_is_none",
    "C11_not_utf8_is_none",
    "C11_lookup_total"
   ],
   "note": "For every heap, every history of earlier lookups and every index."
  },
  {
   "property": "C12",
   "status": "proved",
   "theorems": [
    "C12_cache_transparent"
   ],
   "note": "Cache invariant over all finite histories."
  },
  {
   "property": "C13",
   "status": "proved",
   "theorems": [
    "C13_reader_is_the_blob",
    "C13_only_the_blob",
    "C13_non_interference",
    "C13_truncated_blob_panics"
   ],
   "note": "Exact bytes of the blob, inversion, non-interference for every decoder. A prefix running past the heap panics (C13_truncated_blob_panics)."
  },
  {
   "property": "C14",
   "status": "proved",
   "theorems": [
    "C14_compressed_round_trip",
    "C14_encoding_length"
   ],
   "note": "All n below 2^29 at any position."
  },
  {
   "property": "C15",
   "status": "proved",
   "theorems": [
    "C15_compressed_total"
   ],
   "note": "Any buffer and position; the consumed bytes are an encoding of the value; both build profiles."
  },
  {
   "property": "C16",
   "status": "proved",
   "theorems": [
    "C16_user_string",
    "C16_user_string_in_heap"
   ],
   "note": "All code unit sequences, with or without flag byte, also through the heap. Alignment of the u16 slice is not modelled."
  },
  {
   "property": "C17",
   "status": "partial",
   "theorems": [
    "C17_element_type_partial",
    "C17_element_type_exact",
    "C17_function_pointer_refuted",
    "C17_type_reference",
    "C17_bad_reference_tag"
   ],
   "note": "Holds exactly (iff) for types without function pointers, custom modifiers and non-zero lower bounds; the others are refuted."
  },
  {
   "property": "C18",
   "status": "partial",
   "theorems": [
    "C18_signatures_total_partial",
    "C18_field_signature_partial",
    "C18_field_signature_refuted"
   ],
   "note": "Total for every decoder except field signatures, where a custom modifier panics (refuted); the characterisation is exact."
  },
  {
   "property": "C19",
   "status": "partial",
   "theorems": [
    "C19_array_shape_partial",
    "C19_array_shape_exact",
    "C19_lower_bound_refuted"
   ],
   "note": "Rank and sizes always right; lower bounds right iff all are zero (refuted otherwise: rotated words are not decoded)."
  },
  {
   "property": "C20",
   "status": "partial",
   "theorems": [
    "C20_method_signature_partial",
    "C20_vararg_call_site_refuted",
    "C20_field_signature_partial",
    "C20_property_signature_partial",
    "C20_method_spec_partial",
    "C20_type_spec_partial"
   ],
   "note": "Round trips for signatures built from faithful types; call sites with variable arguments are refuted for every such signature."
  },
  {
   "property": "C21",
   "status": "proved",
   "theorems": [
    "C21_marshalling",
    "C21_unknown_native_type"
   ],
   "note": "All native types and optional components; unknown native types are errors."
  },
  {
   "property": "C22",
   "status": "proved",
   "theorems": [
    "C22_index_width"
   ],
   "note": "Two bytes iff fewer than 2^16 rows, for the nine tables that are indexed by a plain column."
  },
  {
   "property": "C23",
   "status": "partial",
   "theorems": [
    "C23_coded_width_partial",
    "C23_coded_width_refuted"
   ],
   "note": "False when a target table has exactly 2^(16-bits) rows (refuted for every kind), because the code compares with > instead of >=, and when DeclSecurity is the table that makes HasCustomAttribute wide. Proved: the width is right exactly for the remaining (settled) row counts."
  },
  {
   "property": "C24",
   "status": "partial",
   "theorems": [
    "C24_coded_round_trip_partial",
    "C24_unassigned_tag",
    "C24_coded_round_trip_refuted"
   ],
   "note": "False for tag 8 (DeclSecurity) of HasCustomAttribute, which is rejected (refuted). Proved for all other kinds, tags and rows, narrow and wide; unassigned tags are errors."
  },
  {
   "property": "C25",
   "status": "partial",
   "theorems": [
    "C25_row_partial"
   ],
   "note": "All 38 tables, all columns, exact consumption. Missing only the two cases in which the full claim is false: unsettled row counts (C23) and custom attributes on DeclSecurity rows (C24)."
  },
  {
   "property": "C26",
   "status": "partial",
   "theorems": [
    "C26_stream_round_trip_partial",
    "C26_stream_round_trip_refuted",
    "C26_stream_total"
   ],
   "note": "Whole stream, any subset of tables. Missing only the two cases of C25, where it is false (refuted with 2048 ModuleRef rows). In addition no byte string makes the table reader panic."
  },
  {
   "property": "C27",
   "status": "partial",
   "theorems": [
    "C27_handle_index",
    "C27_position_round_trip_partial",
    "C27_position_round_trip_refuted"
   ],
   "note": "False for InterfaceImpl, whose conversion from a position omits the +1 (refuted). Proved for the other 37 tables."
  },
  {
   "property": "C28",
   "status": "proved",
   "theorems": [
    "C28_type_attributes",
    "C28_field_attributes",
    "C28_method_impl_attributes",
    "C28_method_attributes",
    "C28_pinvoke_attributes",
    "C28_generic_param_attributes",
    "C28_param_attributes",
    "C28_event_attributes",
    "C28_property_attributes",
    "C28_assembly_flags",
    "C28_hash_algorithm",
    "C28_method_semantics",
    "C28_constant_type"
   ],
   "note": "Each decoder accepts exactly the words that ECMA-335 gives a meaning and returns that meaning."
  },
  {
   "property": "C29",
   "status": "partial",
   "theorems": [
    "C29_tiny_body",
    "C29_fat_body_partial",
    "C29_unsupported_local_refuted"
   ],
   "note": "Tiny bodies: proved in full. Fat bodies: proved when every local is a built-in type, class, struct or vector of these. For a pointer, by-reference, generic or multi-dimensional local the loader panics (C29_unsupported_local_refuted)."
  },
  {
   "property": "C30",
   "status": "partial",
   "theorems": [
    "C30_clauses_partial",
    "C30_later_sections_refuted"
   ],
   "note": "Proved for one section of clauses, small or fat. The property fails when the clauses are spread over several sections, which II.25.4.5 allows: only the first section is read (C30_later_sections_refuted)."
  },
  {
   "property": "C31",
   "status": "partial",
   "theorems": [
    "C31_identifiers_partial",
    "C31_identifiers_debug",
    "C31_identifiers_refuted",
    "C31_registered_types_stay",
    "C31_no_dangling_types"
   ],
   "note": "Proved for every history of a debug build, and of a release build with at most 2^32 types; refuted for release builds beyond that, where identifiers start again at zero. Also: registered types never change or move, and nothing refers to an unregistered type."
  },
  {
   "property": "C32",
   "status": "proved",
   "theorems": [
    "C32_lookup_latest"
   ],
   "note": "For every history of loads (successful or failed) and array-type creations."
  },
  {
   "property": "C33",
   "status": "partial",
   "theorems": [
    "C33_array_type_unique_partial",
    "C33_array_type_stays",
    "C33_array_types_distinct",
    "C33_element_type_refuted"
   ],
   "note": "Asking again returns the same type and registers nothing, also later unless an assembly defines a type with the array's own name; arrays of differently named elements are distinct. Refuted for the element type: two types of the same name share one array type."
  },
  {
   "property": "C34",
   "status": "proved",
   "theorems": [
    "C34_field_tokens",
    "C34_method_tokens",
    "C34_no_such_row"
   ],
   "note": "Field and method tokens resolve to the member the row describes, owned by the type whose list has the row, after the load and for ever."
  },
  {
   "property": "C35",
   "status": "partial",
   "theorems": [
    "C35_member_ref_tokens_partial",
    "C35_type_ref_parents_partial",
    "C35_other_parents_refuted",
    "C35_overloads_refuted"
   ],
   "note": "False for mixed parents (rows with other parents are skipped and shift the tokens) and for overloads (only the name is compared). Proved where all parents are type references: right name and right declaring type. C35_member_ref_tokens_partial says what happens for any mix."
  },
  {
   "property": "C36",
   "status": "partial",
   "theorems": [
    "C36_offsets",
    "C36_apart",
    "C36_fields_apart_partial",
    "C36_fields_apart_refuted",
    "C36_fields_inside_refuted"
   ],
   "note": "Proved for class hierarchies whose instance fields are of value types registered before the class; refuted for reference fields (both at one offset) and for instance fields behind static fields (outside the object). Where every field of every loaded type is, and exactly when two fields of a type lie apart, is proved without restrictions (C36_offsets, C36_apart)."
  },
  {
   "property": "C37",
   "status": "partial",
   "theorems": [
    "C37_instance_of_partial",
    "C37_instance_of_sound",
    "C37_instance_of_bases",
    "C37_instance_of_answers",
    "C37_instance_of_refuted"
   ],
   "note": "The answer is exact for bases and for the interfaces of a type without base, always sound, and given for every finite chain of bases; refuted for the interfaces of a class that has a base. Types are compared by full name."
  },
  {
   "property": "C38",
   "status": "partial",
   "theorems": [
    "C38_unreadable",
    "C38_unknown_type",
    "C38_failed_load_partial",
    "C38_failed_load_refuted",
    "C38_remains",
    "C38_lacking"
   ],
   "note": "False in general: a load that fails late leaves types behind (C38_failed_load_refuted). Proved: nothing that was there changes, no assembly is added when the references were loaded, and unreadable images or missing types change nothing. Whatever the reason, what a failed load leaves is whole assemblies loaded for references (C38_remains, C38_lacking), except if the contents of an image that lacks nothing cannot be loaded."
  },
  {
   "property": "C39",
   "status": "partial",
   "theorems": [
    "C39_fresh",
    "C39_disjoint",
    "C39_negative_refuted"
   ],
   "note": "C39_fresh/C39_disjoint: every successful allocation of an object, array or string appends one zeroed block with the right header behind everything on the heap; for arbitrary histories of allocations the blocks are disjoint and nothing earlier changes. In release builds this needs sizes below 2^64: C39_negative_refuted shows new int[-1] wrapping."
  },
  {
   "property": "C40",
   "status": "partial",
   "theorems": [
    "C40_partial",
    "C40_refuted"
   ],
   "note": "C40_partial: as long as the heap stays within its capacity all references stay valid and all contents are kept. C40_refuted: once an allocation makes the heap move, every earlier reference is dangling and each use of it is undefined behaviour."
  },
  {
   "property": "C41",
   "status": "partial",
   "theorems": [
    "C41_new",
    "C41_load",
    "C41_store",
    "C41_other",
    "C41_narrow_refuted",
    "C41_other_types_refuted",
    "C41_reference_refuted"
   ],
   "note": "For fields of all ten number types: zero at first, load after store, nothing else written. C41_narrow_refuted: storing a value of another width (an int into a short field, which is what the instruction gets for short fields) overwrites the next field. C41_other_types_refuted: fields of any other type (references, bool, char) cannot be loaded (panic); C41_reference_refuted: references cannot be stored in fields."
  },
  {
   "property": "C42",
   "status": "partial",
   "theorems": [
    "C42_new",
    "C42_load",
    "C42_load_outside",
    "C42_store",
    "C42_store_outside",
    "C42_exact",
    "C42_set",
    "C42_get",
    "C42_newarr",
    "C42_newarr_negative",
    "C42_other_type",
    "C42_reference_refuted"
   ],
   "note": "Arrays of all number types: new arrays are zero, stores and loads are exact and bounds checked, by instruction (System.Int32) and by the host interface (all types); wrong element types are refused. C42_reference_refuted: arrays of System.Object are used outside the heap. Negative lengths: C42_newarr_negative (debug), C39_negative_refuted (release)."
  },
  {
   "property": "C43",
   "status": "proved",
   "theorems": [
    "C43_new",
    "C43_read",
    "C43_kept",
    "C43_apart",
    "C43_literal"
   ],
   "note": "New strings have the given text; reading returns it; later allocations within the capacity and writes elsewhere keep it; the instruction that loads a literal gives the text of the literal."
  },
  {
   "property": "C44",
   "status": "proved",
   "theorems": [
    "C44_add_sub_mul",
    "C44_neg",
    "C44_and_or_xor",
    "C44_not",
    "C44_shl",
    "C44_shr",
    "C44_shl_release",
    "C44_shr_release"
   ],
   "note": "Every operator the interpreter implements (add, sub, mul, neg, and, or, xor, not, shl, shr) at every supported operand type, in both build profiles: release wraps, debug panics on overflow."
  },
  {
   "property": "C45",
   "status": "proved",
   "theorems": [
    "C45_div_rem"
   ],
   "note": "Quotient and remainder by truncation; division by zero and MIN / -1 panic in both profiles."
  },
  {
   "property": "C46",
   "status": "partial",
   "theorems": [
    "C46_division_exactly",
    "C46_remainder_exactly",
    "C46_comparison_exactly",
    "C46_unsigned_comparison_refuted",
    "C46_unsigned_division_refuted",
    "C46_unsigned_partial"
   ],
   "note": "Refuted as stated: cgt.un, clt.un, div.un, rem.un compare/divide signed. C46_unsigned_partial covers operands that are both non-negative; the C46_*_exactly theorems say for all operands of each width when the answer of the instruction is nevertheless the unsigned one. Unsigned branches are not implemented (C59)."
  },
  {
   "property": "C47",
   "status": "proved",
   "theorems": [
    "C47_compare",
    "C47_branch",
    "C47_branch_on_zero"
   ],
   "note": "Comparisons and compare-and-branch agree with the order of the numbers, NaN included; brtrue/brfalse on every value kind."
  },
  {
   "property": "C48",
   "status": "partial",
   "theorems": [
    "C48_size_partial",
    "C48_constants",
    "C48_load_variable",
    "C48_store_variable",
    "C48_long_argument_refuted",
    "C48_long_argument_end_refuted"
   ],
   "note": "Refuted for the long forms ldarg, starg, ldarga: a 4-byte index is read where the format has 2. All other supported instructions have the size of their format."
  },
  {
   "property": "C49",
   "status": "proved",
   "theorems": [
    "C49_jump",
    "C49_conditional",
    "C49_before_the_code"
   ],
   "note": "Targets are relative to the next instruction, forwards and backwards; a target before the code panics in debug and leaves the code in release."
  },
  {
   "property": "C50",
   "status": "partial",
   "theorems": [
    "C50_arguments",
    "C50_constructor_arguments",
    "C50_result_refuted",
    "C50_left_behind_refuted",
    "C50_call_partial",
    "C50_newobj_partial"
   ],
   "note": "Argument order and removal are proved for every method and arity (call and newobj). The result part is false for code that breaks the stack discipline (refuted: a callee can leave operands behind or take its caller's). Proved for methods with consistent stacks (the discipline ECMA-335 requires), for every execution."
  },
  {
   "property": "C51",
   "status": "proved",
   "theorems": [
    "C51_frames_release",
    "C51_nothing_left"
   ],
   "note": "For every execution of every method, at any depth, ending with a value or an error. A panic or undefined behaviour ends the process and has no frames left to speak of."
  },
  {
   "property": "C52",
   "status": "proved",
   "theorems": [
    "C52_callee_cannot_change",
    "C52_variables_kept"
   ],
   "note": "Every cell of frame storage below a call's own is the same after it, and a frame's own variables read the same after any call it makes, as long as the storage has not been moved (that defect is C53)."
  },
  {
   "property": "C53",
   "status": "partial",
   "theorems": [
    "C53_frames_valid_refuted",
    "C53_recursion_refuted",
    "C53_frames_valid_partial"
   ],
   "note": "False: when the storage grows, the pointers of all frames already running dangle (refuted, also by plain recursion to depth 66). Proved for executions that never need more than the initial room."
  },
  {
   "property": "C54",
   "status": "proved",
   "theorems": [
    "C54_budget",
    "C54_one_outcome",
    "C54_one_trace",
    "C54_loop_is_trace"
   ],
   "note": "The outcome is unique, more budget never changes it, and the loop finds exactly the executions described by the trace relation."
  },
  {
   "property": "C55",
   "status": "proved",
   "theorems": [
    "C55_output_appended",
    "C55_output_meanwhile",
    "C55_append_only"
   ],
   "note": "The output after any execution is the output before followed by the texts written by the trace, in order; during it, the output at every moment is a prefix."
  },
  {
   "property": "C56",
   "status": "partial",
   "theorems": [
    "C56_zero_refuted",
    "C56_use_refuted",
    "C56_zero_partial",
    "C56_value_partial"
   ],
   "note": "False: a fresh local reads as the 8-bit integer 0 whatever its declared type, and adding it to an int panics (both refuted). Proved: it reads as a number whose value is 0 until assigned."
  },
  {
   "property": "C57",
   "status": "proved",
   "theorems": [
    "C57_expression"
   ],
   "note": "For every expression on 32-bit integers built from constants, arguments, locals and the arithmetic, bitwise, shift and comparison instructions, in any encoding. Unassigned locals and shift distances outside 0..31 are left unspecified."
  },
  {
   "property": "C58",
   "status": "proved",
   "theorems": [
    "C58_only_static",
    "C58_only_static_of_assembly"
   ],
   "note": "For every method of every registered type or loaded assembly, in every state reachable by a history of uses."
  },
  {
   "property": "C59",
   "status": "proved",
   "theorems": [
    "C59_unsupported_instruction",
    "C59_unsupported_run"
   ],
   "note": "Every defined but unsupported instruction stops execution without an effect. Undefined opcode bytes panic."
  },
  {
   "property": "C60",
   "status": "partial",
   "theorems": [
    "C60_first_file",
    "C60_no_file",
    "C60_loaded_references",
    "C60_loaded_twice_refuted"
   ],
   "note": "The search order is proved. Loading by name does load twice (C60_loaded_twice_refuted); references that are loaded are not searched for."
  },
  {
   "property": "C61",
   "status": "partial",
   "theorems": [
    "C61_image_data_partial",
    "C61_resource_data_partial",
    "C61_image_data_refuted",
    "C61_image_data_exactly",
    "C61_resource_data_exactly"
   ],
   "note": "Exact for every request: C61_image_data_exactly and C61_resource_data_exactly say when there is data, an error or a panic. The English claim is false of requests that leave the file, which panic instead of returning an error (refuted)."
  },
  {
   "property": "C62",
   "status": "partial",
   "theorems": [
    "C62_object_result_refuted",
    "C62_other_results_partial"
   ],
   "note": "False for objects: every execution that ends with an object reads freed memory (refuted). Proved for every other result."
  },
  {
   "property": "C63",
   "status": "proved",
   "theorems": [
    "C63_operands_kept",
    "C63_result_of_execution"
   ],
   "note": "For every set of methods with consistent stacks, closed under calls; at every moment of every execution."
  },
  {
   "property": "C64",
   "status": "proved",
   "theorems": [
    "C64_outcome",
    "C64_only_outcomes",
    "C64_no_outcome"
   ],
   "note": "Structured programs without calls, objects or arrays. Outcomes are exact in both directions, including divergence."
  },
  {
   "property": "C65",
   "status": "proved",
   "theorems": [
    "C65_type_tokens",
    "C65_type_ref_tokens",
    "C65_type_names"
   ],
   "note": "For images with consecutive lists and fewer than 2^24 types."
  },
  {
   "property": "C66",
   "status": "proved",
   "theorems": [
    "C66_field_by_name",
    "C66_method_by_name"
   ],
   "note": "For every reachable state."
  },
  {
   "property": "C67",
   "status": "proved",
   "theorems": [
    "C67_one_outcome",
    "C67_outcome",
    "C67_only_outcomes",
    "C67_no_outcome"
   ],
   "note": "For programs on 32-bit integers. Outcomes that exceed the initial storage for variables or read an unassigned variable are left open, as C53 and C56 say."
  },
  {
   "property": "C68",
   "status": "proved",
   "theorems": [
    "C68_type_shape",
    "C68_type_members"
   ],
   "note": "Base type, kind, interfaces, fields and methods of every loaded type, for all well-formed metadata; a load that succeeds is assumed, as the property says."
  },
  {
   "property": "C69",
   "status": "proved",
   "theorems": [
    "C69_program",
    "C69_console"
   ],
   "note": "For images that load, have consecutive lists, and whose references are loaded already; member references all have type references as parents (C35)."
  },
  {
   "property": "C70",
   "status": "partial",
   "theorems": [
    "C70_test_program_partial",
    "C70_entry_refuted",
    "C70_from_images_partial"
   ],
   "note": "False as stated because of C10: what is run is the function in the row before the one in the header (C70_entry_refuted). Proved with that row, for startups and loads that succeed, and from conditions on the images alone (C70_from_images_partial)."
  },
  {
   "property": "C71",
   "status": "proved",
   "theorems": [
    "C71_load",
    "C71_start"
   ],
   "note": "The conditions are sufficient, not necessary. Images with value types of their own as locals, arguments or fields are covered; member references whose parent is not a type reference are ignored by the loader (C35). In debug builds the number of types has to stay below 2^32."
  },
  {
   "property": "C72",
   "status": "partial",
   "theorems": [
    "C72_own_borrows",
    "C72_guards_partial",
    "C72_types_refuted"
   ],
   "note": "False as stated: a program that holds clr.types() or clr.assemblies() and asks for an array type, loads or runs can panic (C72_types_refuted). Proved: no function panics through its own borrows (C72_own_borrows), and with any views held a call can clash exactly if it may change the registry and a view of the types or assemblies is held (C72_guards_partial). Borrows.v leaves conditions open, so a clash there is possible in some state, not in each."
  },
  {
   "property": "C73",
   "status": "partial",
   "theorems": [
    "C73_safe_refuted",
    "C73_safe_partial",
    "C73_numbers_partial",
    "C73_hazards_refuted"
   ],
   "note": "False of the code: C73_safe_refuted has a loaded method that, given two numbers, writes outside the heap in both build profiles, and C73_hazards_refuted has an execution for each main kind of hazard. C73_safe_partial: for every history of the runtime, every method and all parameters that are numbers, an execution of any number of steps has no undefined behaviour if no place that it reaches (SpecSafety.reaches, also of executions that do not end) meets a hazard (SpecSafety.hazard), other than reading an object that it returns (C62). Missing, because false: the statement without the hazards. vectors says that no table of a loaded assembly has 2^63 rows or more."
  },
  {
   "property": "C74",
   "status": "proved",
   "theorems": [
    "C74_double",
    "C74_single",
    "C74_neg",
    "C74_unique"
   ],
   "note": "All five operations and neg, both formats, every pair of bit patterns; the specification is proved to determine the result up to the payload of a NaN."
  },
  {
   "property": "C75",
   "status": "proved",
   "theorems": [
    "C75_load",
    "C75_start",
    "C75_metadata",
    "C75_blobs",
    "C75_test_program",
    "C75_test_program_hazards"
   ],
   "note": "The alignment of the data in memory is not modelled. C75_test_program_hazards joins this with C73."
  },
  {
   "property": "C76",
   "status": "proved",
   "theorems": [
    "C76_image",
    "C76_blobs",
    "C76_load",
    "C76_start",
    "C76_execute",
    "C76_test_program",
    "C76_history"
   ],
   "note": "Both builds are compared by one relation, with the panics that only a debug build has listed in SpecProfiles. What the builds do after the panic (unwinding) is not modelled; neither are the compiler optimisations of a release build."
  },
  {
   "property": "C77",
   "status": "partial",
   "theorems": [
    "C77_load_data_partial",
    "C77_load_path_partial",
    "C77_load_assembly_partial",
    "C77_start_partial",
    "C77_size_partial",
    "C77_references_refuted",
    "C77_sizes_refuted",
    "C77_base_refuted"
   ],
   "note": "Refuted as stated: assemblies that refer to one another, a class that extends itself, and structs that contain themselves never end. The partial theorems give a sufficient depth for all runtimes and all images whose types and references follow some order; running a method is the subject of C78."
  },
  {
   "property": "C78",
   "status": "proved",
   "theorems": [
    "C78_ends",
    "C78_straight",
    "C78_loop",
    "C78_recursion",
    "C78_loop_exists",
    "C78_recursion_exists"
   ],
   "note": "The types of the runtime must follow an order: taking the size of types that do not can go on forever (C77). Coming back includes coming back with an error, a panic or undefined behaviour (C73 and the other claims say which)."
  },
  {
   "property": "C79",
   "status": "partial",
   "theorems": [
    "C79_strings_refuted",
    "C79_arrays_refuted",
    "C79_objects_refuted",
    "C79_first_refuted",
    "C79_aligned_partial",
    "C79_operands_refuted"
   ],
   "note": "Refuted for every address of the heap: of two strings, or two arrays of numbers of more than one byte, that follow one another one is misaligned; so is the first such thing on a heap at an even address, and there is a method with a misaligned operand wherever its code is. C79_aligned_partial gives a sufficient condition. Reads of image data are C87."
  },
  {
   "property": "C80",
   "status": "partial",
   "theorems": [
    "C80_numbered_partial",
    "C80_result_row_refuted",
    "C80_other_rows_refuted",
    "C80_no_rows_refuted"
   ],
   "note": "False: rows are taken by position and not by their sequence numbers. Refuted: with a row for the result every parameter has the name before its own; parameters of a method without rows have names of later methods, or the image cannot be loaded if there are no more rows. Proved where the rows of the method are numbered 1, 2, ... in order."
  },
  {
   "property": "C81",
   "status": "partial",
   "theorems": [
    "C81_token_text",
    "C81_rva_text",
    "C81_numbers_apart",
    "C81_texts",
    "C81_method_text_partial",
    "C81_method_text_refuted",
    "C81_kind_text"
   ],
   "note": "False for methods: namespaces are not shown, so different signatures can have the same text (refuted with two overloads). Proved: all texts exactly; tokens, addresses and kinds are told apart; method texts are told apart by the short names of the types when no name has spaces, commas or parentheses."
  },
  {
   "property": "C82",
   "status": "partial",
   "theorems": [
    "C82_last_partial",
    "C82_only_partial",
    "C82_assembly_refuted",
    "C82_nested_refuted"
   ],
   "note": "False: the scope of a reference is not looked at. C82_assembly_refuted: where another assembly registered a type of the same full name later, the reference stands for that one; C82_nested_refuted: references of one name stand for one type whatever types they are nested in (example with two nested types). Proved: where the last type registered under the name is of the named assembly (C82_last_partial), in particular where it is the only one (C82_only_partial), for images whose references are loaded."
  },
  {
   "property": "C83",
   "status": "partial",
   "theorems": [
    "C83_field_partial",
    "C83_field_refuted",
    "C83_use_refuted",
    "C83_variable_partial",
    "C83_variable_refuted"
   ],
   "note": "False of all short and unsigned integer types: C83_field_refuted (a field is loaded with its own width), C83_use_refuted (and combining it with an int constant panics), C83_variable_refuted (a number too large for the type of a variable is kept as it is). Proved for fields of the types that the stack has (C83_field_partial) and for numbers of the variable's type (C83_variable_partial). Storing short fields is C41_narrow_refuted; fields of type bool and char cannot be loaded at all (panic)."
  },
  {
   "property": "C84",
   "status": "partial",
   "theorems": [
    "C84_notes_tables",
    "C84_notes_signatures",
    "C84_tables_partial",
    "C84_latest_partial",
    "C84_tables_refuted",
    "C84_signatures_partial",
    "C84_signatures_refuted",
    "C84_nested_refuted"
   ],
   "note": "False as stated. Input that can be decoded asks for what it holds: as many rows as there are, two bytes or more each (C84_tables_partial), and no more elements than bytes for signatures (C84_signatures_partial); of table streams that cannot be decoded, only the latest request may be too large (C84_latest_partial). But counts are believed before the elements are read: 28 bytes ask for any number of rows below 2^32 (C84_tables_refuted), 5 or 6 bytes for any number of signature elements below 2^30 (C84_signatures_refuted), and nested types do so at every level (C84_nested_refuted). C84_notes_tables and C84_notes_signatures tie the annotated decoders to those of the other properties."
  },
  {
   "property": "C85",
   "status": "partial",
   "theorems": [
    "C85_identity",
    "C85_branch",
    "C85_allocated",
    "C85_literal_refuted",
    "C85_condition_refuted"
   ],
   "note": "Identity of references and the freshness of allocations are proved while the heap has not moved. Refuted: each ldstr allocates a new object, so that the same literal loaded twice compares as different (C85_literal_refuted), and brtrue and brfalse panic for every reference (C85_condition_refuted). References into a buffer that has since been moved are outside the model (C40)."
  },
  {
   "property": "C86",
   "status": "partial",
   "theorems": [
    "C86_equal_partial",
    "C86_equal_refuted",
    "C86_order_refuted",
    "C86_arithmetic_refuted",
    "C86_fresh_refuted",
    "C86_shift_partial",
    "C86_shift_refuted"
   ],
   "note": "Operands of the same type work as C44-C47 say. Refuted for all pairs of different types of the same size: ceq and beq find equal numbers different, the other comparisons and all arithmetic panic, a fresh local differs from the constant zero, and a 64-bit number cannot be shifted by a 32-bit count."
  },
  {
   "property": "C87",
   "status": "partial",
   "theorems": [
    "C87_body_nothing_else",
    "C87_tiny_body",
    "C87_fat_body",
    "C87_unaligned_body_refuted",
    "C87_small_clauses_refuted",
    "C87_row",
    "C87_stream",
    "C87_rows_refuted",
    "C87_usual_refuted",
    "C87_headers",
    "C87_compressed",
    "C87_literal",
    "C87_literals_refuted",
    "C87_neighbours_refuted",
    "C87_nothing_else",
    "C87_image_nothing_else",
    "C87_image",
    "C87_image_refuted"
   ],
   "note": "Exact conditions for the headers (C87_headers), rows and streams of tables, compressed numbers, literals, the metadata of a whole image (C87_image) and method bodies (C87_tiny_body, C87_fat_body): read correctly if aligned, undefined if not, and nothing else differs (C87_nothing_else, C87_image_nothing_else, C87_body_nothing_else). Refuted wherever the image is: tables with two rows whose size is not a multiple of a column (in usual images, two types or two methods, C87_image_refuted), literals of 64 or more code units after another literal, and every method with exception clauses in the small form (C87_small_clauses_refuted). Not covered: the exact condition for all signatures in the blob heap at once."
  },
  {
   "property": "C88",
   "status": "partial",
   "theorems": [
    "C88_truth_value_partial",
    "C88_truth_value_refuted",
    "C88_character_partial",
    "C88_character_refuted"
   ],
   "note": "Exact conditions (C88_truth_value_partial, C88_character_partial); refuted for bytes other than 0 and 1 and for surrogates."
  },
  {
   "property": "C89",
   "status": "partial",
   "theorems": [
    "C89_string_partial",
    "C89_array_partial",
    "C89_object_partial",
    "C89_grows_partial",
    "C89_reference_partial",
    "C89_neighbour_refuted"
   ],
   "note": "False of the code: C89_neighbour_refuted shows, for all states, a store of an int to a short at the end of an object that turns the array or string behind it into something else. C89_string_partial, C89_array_partial, C89_object_partial, C89_grows_partial and C89_reference_partial prove the property for every two places of every execution that starts with numbers and meets none of the hazards of C73 (which include that the heap stays within its first 1024 bytes)."
  },
  {
   "property": "C90",
   "status": "partial",
   "theorems": [
    "C90_named_partial",
    "C90_supported",
    "C90_one_instruction",
    "C90_unknown_refuted",
    "C90_no_refuted",
    "C90_prefix7_partial"
   ],
   "note": "Proved: every instruction of CIL except no. is recognised and, when it is not supported, reported under its mnemonic with the state unchanged; what is supported are instructions of CIL; at most one instruction stands at a place. Refuted: bytes that are no instruction, the end of the code and no. end the process. Not part of it: what the supported instructions do (C48, C50 to C58 and others)."
  },
  {
   "property": "C91",
   "status": "proved",
   "theorems": [
    "C91_memory",
    "C91_grows",
    "C91_ways",
    "C91_field",
    "C91_element"
   ],
   "note": "The values of fields and elements are those of executions without hazards; with hazards see C89_neighbour_refuted."
  },
  {
   "property": "C92",
   "status": "proved",
   "theorems": [
    "C92_again",
    "C92_loads",
    "C92_before",
    "C92_kept"
   ],
   "note": "C92_again: executions and requests for array types in between; C92_loads: loads as well. Loads that define types with names of the class library or of array types again are left out of the property."
  },
  {
   "property": "C93",
   "status": "partial",
   "theorems": [
    "C93_text",
    "C93_explained_partial",
    "C93_execution_partial",
    "C93_misleading_refuted",
    "C93_offset_refuted",
    "C93_ldelem_refuted",
    "C93_entry"
   ],
   "note": "Every error of an execution has a text that starts with the error of the model (C93_text, C93_execution_partial); it explains the error, or is one of three that do not: an unsupported two-byte instruction is reported at the offset of its second byte (C93_offset_refuted), ldelem.i4 on something that is no array is reported as Stelem (C93_ldelem_refuted), and the byte 0xf8 as an instruction Prefix7. C93_misleading_refuted: these texts never explain the error. The digits of floats and addresses are left open. The theorem about offsets assumes code shorter than 2^63 bytes, as every Rust slice is."
  },
  {
   "property": "C94",
   "status": "proved",
   "theorems": [
    "C94_named",
    "C94_by_name",
    "C94_fails",
    "C94_silent"
   ],
   "note": "The texts of errors for files that cannot be read, for metadata that cannot be read, and for contents that cannot be resolved are not modelled; the theorems are about the five texts of the statement. fuel bounds the depth of the chain of references."
  },
  {
   "property": "C95",
   "status": "partial",
   "theorems": [
    "C95_named",
    "C95_named_by_name",
    "C95_stays",
    "C95_stays_by_name",
    "C95_stays_later",
    "C95_system",
    "C95_references_partial",
    "C95_references_honest_partial",
    "C95_one",
    "C95_references_refuted"
   ],
   "note": "Proved: the name, that what is loaded stays loaded (with the two system assemblies), and that one assembly is added if the references were loaded before. The sentence about references (they are loaded afterwards under the name of the reference) is false: the file that is found for a reference is loaded whatever the name of the assembly in it, and this name is not compared with that of the reference (C95_references_refuted: the client refers to Helper, Helper.dll holds Zoo, the load succeeds and no Helper is loaded). C95_references_partial: that is the only exception, and then the assembly is loaded under its own name; C95_references_honest_partial: the sentence holds when the files have the names of their assemblies."
  },
  {
   "property": "C96",
   "status": "proved",
   "theorems": [
    "C96_loads",
    "C96_from_path",
    "C96_start",
    "C96_elsewhere",
    "C96_hidden",
    "C96_no_disk",
    "C96_program"
   ],
   "note": "C96_loads, C96_from_path, C96_start and C96_program are about two disks on which the same is found; C96_elsewhere and C96_hidden give the particular cases by showing that the disks are such. fuel bounds the depth of the references and the steps; running out of it is among the outcomes that are compared. Names are taken to be plain file names (Loader.resolve_assembly_name), and the disk does not change during a load."
  }
 ]
}