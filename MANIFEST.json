{
 "claims": [
  {
   "property": "C01",
   "status": "proved",
   "theorems": [
    "C01_allocations_never_overlap"
   ],
   "note": "induction over allocation histories of the emitted allocator"
  },
  {
   "property": "C02",
   "status": "partial",
   "theorems": [
    "C02_huge_requests_refuted",
    "C02_requests_below_2GiB_partial"
   ],
   "note": "False as stated: requests of 2^31 bytes or more pass the signed comparison and return a block outside memory. Proved for requests below 2^31."
  },
  {
   "property": "C03",
   "status": "proved",
   "theorems": [
    "C03_add_u8_u64"
   ],
   "note": "every width u8..u64, every pair of operands, every running state"
  },
  {
   "property": "C04",
   "status": "proved",
   "theorems": [
    "C04_add_u128_u256"
   ],
   "note": "memory exhaustion (linear memory cannot grow) is an explicit third outcome"
  },
  {
   "property": "C05",
   "status": "proved",
   "theorems": [
    "C05_sub_u8_u64"
   ],
   "note": ""
  },
  {
   "property": "C06",
   "status": "proved",
   "theorems": [
    "C06_sub_u128_u256"
   ],
   "note": "memory exhaustion is an explicit third outcome"
  },
  {
   "property": "C07",
   "status": "proved",
   "theorems": [
    "C07_mul_u8_u64"
   ],
   "note": ""
  },
  {
   "property": "C08",
   "status": "partial",
   "theorems": [
    "C08_mul_overflow_undetected_refuted",
    "C08_mul_u128_u256_partial"
   ],
   "note": "the full claim is false of the code: some overflowing products are returned reduced modulo 2^width; exactness of products that fit is proved"
  },
  {
   "property": "C09",
   "status": "proved",
   "theorems": [
    "C09_div_mod_u128_u256",
    "C09_div_mod_u8_u64"
   ],
   "note": ""
  },
  {
   "property": "C10",
   "status": "proved",
   "theorems": [
    "C10_shift_u128_u256"
   ],
   "note": ""
  },
  {
   "property": "C100",
   "status": "partial",
   "theorems": [
    "C100_error_partial",
    "C100_event_partial",
    "C100_error_refuted",
    "C100_event_refuted"
   ],
   "note": "false for errors with underscores in their names and for events with structs inside structs; proved for errors with names in camel case and for events with structs of depth one"
  },
  {
   "property": "C101",
   "status": "partial",
   "theorems": [
    "C101_results_partial",
    "C101_arguments_partial",
    "C101_call_partial",
    "C101_listed_partial",
    "C101_object_refuted"
   ],
   "note": "false for objects as results (the ABI has the id, the contract writes all fields); proved for all results and arguments without objects when different structs have different names; objects as arguments are C93; vectors of structs that are nowhere else: C99_vector_refuted"
  },
  {
   "property": "C11",
   "status": "proved",
   "theorems": [
    "C11_shift_u8_u64"
   ],
   "note": ""
  },
  {
   "property": "C12",
   "status": "proved",
   "theorems": [
    "C12_less_than_is_numeric",
    "C12_comparisons"
   ],
   "note": "emitted limb loop, any number of limbs"
  },
  {
   "property": "C13",
   "status": "partial",
   "theorems": [
    "C13_u64_to_u8_refuted",
    "C13_u256_to_u128_refuted",
    "C13_narrowing_partial"
   ],
   "note": "false for u64 to u8/u16 and u256 to u128; proved for every other narrowing pair"
  },
  {
   "property": "C14",
   "status": "proved",
   "theorems": [
    "C14_widening"
   ],
   "note": ""
  },
  {
   "property": "C15",
   "status": "proved",
   "theorems": [
    "C15_bitwise_u128_u256",
    "C15_bitwise_u8_u64"
   ],
   "note": ""
  },
  {
   "property": "C16",
   "status": "proved",
   "theorems": [
    "C16_equality_compares_all_bytes"
   ],
   "note": "emitted byte loop, any length"
  },
  {
   "property": "C17",
   "status": "proved",
   "theorems": [
    "C17_is_zero_tests_all_bytes"
   ],
   "note": "emitted word loop, any number of 32-bit words"
  },
  {
   "property": "C18",
   "status": "proved",
   "theorems": [
    "C18_swap_values",
    "C18_swap_memory"
   ],
   "note": ""
  },
  {
   "property": "C19",
   "status": "proved",
   "theorems": [
    "C19_decimal"
   ],
   "note": "memory exhaustion is an explicit second outcome"
  },
  {
   "property": "C20",
   "status": "proved",
   "theorems": [
    "C20_abort_payload",
    "C20_named_error_payload"
   ],
   "note": "memory exhaustion is an explicit second outcome"
  },
  {
   "property": "C21",
   "status": "proved",
   "theorems": [
    "C21_push_back_appends"
   ],
   "note": "memory exhaustion is an explicit second outcome; memory limit at most 1 GiB"
  },
  {
   "property": "C22",
   "status": "proved",
   "theorems": [
    "C22_pop_back_removes_last"
   ],
   "note": ""
  },
  {
   "property": "C23",
   "status": "partial",
   "theorems": [
    "C23_equal_indices_out_of_range_refuted",
    "C23_swap_partial"
   ],
   "note": "false for equal out-of-range indices; every other case proved"
  },
  {
   "property": "C24",
   "status": "proved",
   "theorems": [
    "C24_borrow_checks_bounds"
   ],
   "note": "memory exhaustion is an explicit outcome for stack elements"
  },
  {
   "property": "C25",
   "status": "partial",
   "theorems": [
    "C25_empty_vectors_refuted",
    "C25_vector_equality_partial"
   ],
   "note": "false for empty vectors of heap elements; proved when one side contains none"
  },
  {
   "property": "C26",
   "status": "proved",
   "theorems": [
    "C26_vector_copy_independent"
   ],
   "note": "memory exhaustion is an explicit second outcome"
  },
  {
   "property": "C27",
   "status": "proved",
   "theorems": [
    "C27_integers_round_trip"
   ],
   "note": ""
  },
  {
   "property": "C28",
   "status": "proved",
   "theorems": [
    "C28_words",
    "C28_enum_words",
    "C28_enum_tags"
   ],
   "note": ""
  },
  {
   "property": "C29",
   "status": "partial",
   "theorems": [
    "C29_refuted"
   ],
   "note": "false: for bool, u8, u16 and u32 every word is accepted"
  },
  {
   "property": "C30",
   "status": "proved",
   "theorems": [
    "C30_offset",
    "C30_length"
   ],
   "note": ""
  },
  {
   "property": "C31",
   "status": "partial",
   "theorems": [
    "C31_strings_partial",
    "C31_refuted"
   ],
   "note": "false when the decoded string ends within three bytes of the end of the memory; proved otherwise"
  },
  {
   "property": "C32",
   "status": "proved",
   "theorems": [
    "C32_C63_encoding"
   ],
   "note": "messages below 2 GiB; enums without fields, structs without key, strings, integers, addresses, vectors"
  },
  {
   "property": "C33",
   "status": "proved",
   "theorems": [
    "C33_next_slot"
   ],
   "note": ""
  },
  {
   "property": "C34",
   "status": "partial",
   "theorems": [
    "C34_no_overlap",
    "C34_written_in_place_partial",
    "C34_read_in_place_partial"
   ],
   "note": "no overlap is proved for all lists of field sizes; reader and writer positions for fields of integers, bools, addresses and structs of these (vectors: C67); enums: C90, C91; objects with objects inside: C95"
  },
  {
   "property": "C35",
   "status": "partial",
   "theorems": [
    "C35_round_trip_partial",
    "C35_load_traps_refuted"
   ],
   "note": "loading a bool, u8 or u16 field traps when the heap ends at a page boundary although memory can grow; proved otherwise"
  },
  {
   "property": "C36",
   "status": "partial",
   "theorems": [
    "C36_small_index_refuted",
    "C36_wrong_slot_refuted",
    "C36_element_slot_partial"
   ],
   "note": "false in general: the index is added to the hash with a little-endian adder; proved when the addition carries between no two bytes"
  },
  {
   "property": "C37",
   "status": "partial",
   "theorems": [
    "C37_shrink_refuted",
    "C37_shrink_traps_refuted"
   ],
   "note": "false: removed elements stay in storage, and shrinking can trap"
  },
  {
   "property": "C38",
   "status": "proved",
   "theorems": [
    "C38_object_slot",
    "C38_struct_slot",
    "C38_slots_distinct"
   ],
   "note": "keccak256 is an arbitrary function of the host; separation is up to an explicit collision"
  },
  {
   "property": "C39",
   "status": "proved",
   "theorems": [
    "C39_lookup",
    "C39_lookup_kind"
   ],
   "note": ""
  },
  {
   "property": "C40",
   "status": "proved",
   "theorems": [
    "C40_commit",
    "C40_abort"
   ],
   "note": "the selected function is arbitrary; runs that do not end are not described (the host meters gas); flushes made before a revert are undone by the host (chain_after)"
  },
  {
   "property": "C41",
   "status": "partial",
   "theorems": [
    "C41_dispatch",
    "C41_receive",
    "C41_short_refuted",
    "C41_empty_refuted"
   ],
   "note": "proved for calldata of at least four bytes and for empty calldata with a receive function; false for 1-3 bytes of calldata and for empty calldata without a receive function"
  },
  {
   "property": "C42",
   "status": "partial",
   "theorems": [
    "C42_same_name_refuted",
    "C42_same_name_lower_case_refuted",
    "C42_snake_case_names_partial"
   ],
   "note": "false in general (a_b and aB, get__x and get_x collide); proved for conventional snake_case names"
  },
  {
   "property": "C43",
   "status": "proved",
   "theorems": [
    "C43_first",
    "C43_later"
   ],
   "note": "other transactions are assumed not to write the init slot"
  },
  {
   "property": "C44",
   "status": "partial",
   "theorems": [
    "C44_fresh_ids_partial",
    "C44_wrap_refuted"
   ],
   "note": "false for 2^32 ids in one block: the counter wraps; proved for all other pairs of ids"
  },
  {
   "property": "C45",
   "status": "partial",
   "theorems": [
    "C45_frozen_stays",
    "C45_frozen_transfer_fails_partial",
    "C45_frozen_transfer_refuted"
   ],
   "note": "deleting and sharing are refused and change nothing; a transfer fails too, but only after the object was written to the recipient's slot (undone when the transaction reverts), and with the error for deletions"
  },
  {
   "property": "C46",
   "status": "partial",
   "theorems": [
    "C46_transfer_partial",
    "C46_share_partial",
    "C46_freeze_partial",
    "C46_transfer_then_load_partial"
   ],
   "note": "wrapped objects (for them C97), enums that deletion (C92) or loading (C91) does not handle are missing; the recipient's slots must not hold longer vectors; hash collisions inside one object are excluded by hypothesis"
  },
  {
   "property": "C47",
   "status": "partial",
   "theorems": [
    "C47_keys_distinguished_partial",
    "C47_nested_collide_refuted"
   ],
   "note": "false for names with two parts of variable size, e.g. vector<vector<u8>>: lengths are not hashed; proved for all names with at most one such part"
  },
  {
   "property": "C48",
   "status": "partial",
   "theorems": [
    "C48_completes_partial",
    "C48_empty_refuted"
   ],
   "note": "false: an empty vector as name makes the copy loop run until memory is exhausted; proved for names without empty vectors"
  },
  {
   "property": "C49",
   "status": "partial",
   "theorems": [
    "C49_accepted_partial",
    "C49_wellformed_partial",
    "C49_exact_partial",
    "C49_overlong_refuted",
    "C49_truncated_refuted",
    "C49_end_of_memory_refuted"
   ],
   "note": "false: C0 80 is accepted, a string cut inside a character is accepted when the following memory continues it, and the test traps at the end of the memory; the accepted strings are characterised exactly otherwise"
  },
  {
   "property": "C50",
   "status": "partial",
   "theorems": [
    "C50_boundary_partial",
    "C50_between_characters",
    "C50_refuted"
   ],
   "note": "proved for indices below 2^32; false above (only the low 32 bits are used)"
  },
  {
   "property": "C51",
   "status": "proved",
   "theorems": [
    "C51_substring",
    "C51_bytes",
    "C51_out_of_range"
   ],
   "note": "substrings below 2 GiB; memory exhaustion is an explicit outcome"
  },
  {
   "property": "C52",
   "status": "proved",
   "theorems": [
    "C52_index_of"
   ],
   "note": ""
  },
  {
   "property": "C53",
   "status": "proved",
   "theorems": [
    "C53_instantiation",
    "C53_parameters_of_instance"
   ],
   "note": ""
  },
  {
   "property": "C54",
   "status": "proved",
   "theorems": [
    "C54"
   ],
   "note": "the callee's code and the caller are arbitrary; recursion is not expressible because a callee is referred to by its body"
  },
  {
   "property": "C55",
   "status": "partial",
   "theorems": [
    "C55_bytes_partial",
    "C55_refuted"
   ],
   "note": "false: the host writes big-endian and the code does not convert, so the contract reads the bytes in reversed order"
  },
  {
   "property": "C56",
   "status": "partial",
   "theorems": [
    "C56_partial"
   ],
   "note": "proved for messages that are encodings; other messages not covered"
  },
  {
   "property": "C57",
   "status": "proved",
   "theorems": [
    "C57_uleb128"
   ],
   "note": ""
  },
  {
   "property": "C58",
   "status": "proved",
   "theorems": [
    "C58_error_table"
   ],
   "note": ""
  },
  {
   "property": "C59",
   "status": "partial",
   "theorems": [
    "C59_spurious_copy_trap_refuted",
    "C59_copy_traps_only_without_memory_partial"
   ],
   "note": "false for vectors of 1- and 2-byte elements; proved for types without such vectors"
  },
  {
   "property": "C60",
   "status": "partial",
   "theorems": [
    "C60_deep_copy",
    "C60_deep_equality_partial"
   ],
   "note": "copy proved for all types; equality excludes empty vectors of heap elements (see C25)"
  },
  {
   "property": "C61",
   "status": "proved",
   "theorems": [
    "C61_references_follow_relocation"
   ],
   "note": "memory limit at most 1 GiB"
  },
  {
   "property": "C62",
   "status": "partial",
   "theorems": [
    "C62_decoding_partial",
    "C62_message_unambiguous",
    "C62_encodings_denote"
   ],
   "note": "as C31, decoding strings traps near the end of a page"
  },
  {
   "property": "C63",
   "status": "partial",
   "theorems": [
    "C32_C63_encoding",
    "C63_round_trip_partial"
   ],
   "note": "encoding proved in full; the round trip has the exception of C31"
  },
  {
   "property": "C64",
   "status": "partial",
   "theorems": [
    "C64_signer_refuted"
   ],
   "note": "false: the injected function gives its caller no value"
  },
  {
   "property": "C65",
   "status": "proved",
   "theorems": [
    "C65_sender",
    "C65_data"
   ],
   "note": "memory exhaustion is an explicit outcome"
  },
  {
   "property": "C66",
   "status": "proved",
   "theorems": [
    "C66",
    "C66_marker"
   ],
   "note": ""
  },
  {
   "property": "C67",
   "status": "partial",
   "theorems": [
    "C67_round_trip_partial"
   ],
   "note": "vectors must not be shorter than what storage has in their place; hash collisions are excluded by hypothesis; loading narrow fields can trap as in C35"
  },
  {
   "property": "C68",
   "status": "proved",
   "theorems": [
    "C68_wrong_object_reported"
   ],
   "note": "memory exhaustion is an explicit outcome"
  },
  {
   "property": "C69",
   "status": "partial",
   "theorems": [
    "C69_field_round_trip_partial"
   ],
   "note": "values with wrapped objects (for them C95) and those C91 refutes are missing; restrictions of C67"
  },
  {
   "property": "C70",
   "status": "proved",
   "theorems": [
    "C70_exists_reads_slot",
    "C70_borrow_missing_reported"
   ],
   "note": "memory exhaustion is an explicit outcome"
  },
  {
   "property": "C71",
   "status": "proved",
   "theorems": [
    "C71_fresh_id_keeps_state"
   ],
   "note": "memory exhaustion is an explicit outcome"
  },
  {
   "property": "C72",
   "status": "partial",
   "theorems": [
    "C72_delete_partial"
   ],
   "note": "enums that hold vectors, structs that hold enums, and wrapped objects are missing"
  },
  {
   "property": "C73",
   "status": "proved",
   "theorems": [
    "C73_shared_stays"
   ],
   "note": ""
  },
  {
   "property": "C74",
   "status": "partial",
   "theorems": [
    "C74_revert_data",
    "C74_transaction_partial",
    "C74_continues_refuted"
   ],
   "note": "false: the code after a revert is executed and a later error replaces the custom one; proved when the function returns right after the revert"
  },
  {
   "property": "C75",
   "status": "proved",
   "theorems": [
    "C75_call",
    "C75_returns"
   ],
   "note": "types as in C32; messages below 2 GiB; memory exhaustion is an explicit outcome, as is the string decoding trap of C31"
  },
  {
   "property": "C76",
   "status": "partial",
   "theorems": [
    "C76_event_log_partial",
    "C76_empty_vector_refuted",
    "C76_nested_struct_refuted",
    "C76_page_end_refuted"
   ],
   "note": "false for empty indexed vectors and for structs inside indexed structs (wrong topic), and near page ends (traps); proved for all others, empty indexed strings excluded"
  },
  {
   "property": "C77",
   "status": "partial",
   "theorems": [
    "C77_control_flow_partial",
    "C77_conditional_refuted"
   ],
   "note": "false for two-armed conditionals that end in a forward BrTrue; proved for the others and for shapes right for the graph (SpecShape); runs that end"
  },
  {
   "property": "C78",
   "status": "partial",
   "theorems": [
    "C78_changes_saved_partial",
    "C78_seen_later_partial",
    "C78_tree_changes_saved_partial",
    "C78_tree_seen_later_partial",
    "C78_same_object_twice_refuted"
   ],
   "note": "false when one object is passed in two arguments; proved for distinct objects, with and without objects inside; missing: vectors that shrank, and what is missing in C95 and C96 for objects with objects inside"
  },
  {
   "property": "C79",
   "status": "partial",
   "theorems": [
    "C79_fields_saved_partial",
    "C79_place_runs_twice_refuted"
   ],
   "note": "false when one place in the program borrows two fields; proved for what each place borrowed last; missing: wrapped objects as fields (for them C96), vectors that shrank"
  },
  {
   "property": "C80",
   "status": "proved",
   "theorems": [
    "C80_field_reference",
    "C80_variant_references",
    "C80_element_reference",
    "C80_number_element",
    "C80_read_through_reference",
    "C80_write_through_reference",
    "C80_other_parts_kept"
   ],
   "note": "borrowed fields, variant fields and vector elements, reads and writes through them, for every type and path"
  },
  {
   "property": "C81",
   "status": "proved",
   "theorems": [
    "C81_pack",
    "C81_unpack",
    "C81_pack_variant",
    "C81_unpack_variant",
    "C81_new_id",
    "C81_new_object",
    "C81_store_local",
    "C81_move_local",
    "C81_copy_local"
   ],
   "note": "for every type; crashes exactly characterised by the memory limit"
  },
  {
   "property": "C82",
   "status": "partial",
   "theorems": [
    "C82_arguments",
    "C82_writes_reach_caller",
    "C82_pushes_reach_caller",
    "C82_function_appends",
    "C82_assigned_value_refuted",
    "C82_returned_reference_refuted"
   ],
   "note": "proved for the values received, writes to parts and appends; false for a whole value assigned through a parameter and for an append through a returned reference"
  },
  {
   "property": "C83",
   "status": "partial",
   "theorems": [
    "C83_call_partial",
    "C83_standard_reply",
    "C83_second_call_refuted",
    "C83_reference_argument_refuted"
   ],
   "note": "the call, its status and its value are proved; the configured amount is byte-swapped in place by payable calls, and references to numbers are sent as addresses; object ids among the arguments are not modelled; for the reload after delegate calls see C94"
  },
  {
   "property": "C84",
   "status": "proved",
   "theorems": [
    "C84_code_size",
    "C84_balance"
   ],
   "note": "for every address and chain state"
  },
  {
   "property": "C85",
   "status": "partial",
   "theorems": [
    "C85_peep_partial",
    "C85_missing_reported"
   ],
   "note": "objects with other objects inside, and those C91 refutes, are missing"
  },
  {
   "property": "C86",
   "status": "partial",
   "theorems": [
    "C86_named_id_partial",
    "C86_same_name_refuted"
   ],
   "note": "the id is the hash of the bare struct name: structs of different modules with the same name share it"
  },
  {
   "property": "C87",
   "status": "proved",
   "theorems": [
    "C87_uid_of_object",
    "C87_uid_of_named_id"
   ],
   "note": "for every object and state"
  },
  {
   "property": "C88",
   "status": "proved",
   "theorems": [
    "C88_name_in_memory",
    "C88_names_distinct"
   ],
   "note": "for all types of Move programs; references are rejected by the compiler"
  },
  {
   "property": "C89",
   "status": "partial",
   "theorems": [
    "C89_tags_partial",
    "C89_other_type_accepted_refuted",
    "C89_same_type_rejected_refuted"
   ],
   "note": "tags differ for structs one letter apart; false in general: chosen names collide, and the position of a struct in its module is part of some tags"
  },
  {
   "property": "C90",
   "status": "partial",
   "theorems": [
    "C90_saved_in_place_partial"
   ],
   "note": "vectors must not be shorter than what storage has in their place; hash collisions inside one object are excluded by hypothesis"
  },
  {
   "property": "C91",
   "status": "partial",
   "theorems": [
    "C91_round_trip_partial",
    "C91_field_after_enum_refuted"
   ],
   "note": "holds where every part is read from the loaded slot; false for a field after an enum whose stored variant ends before the slot of the field"
  },
  {
   "property": "C92",
   "status": "partial",
   "theorems": [
    "C92_delete_enum_partial",
    "C92_vector_in_enum_refuted",
    "C92_vector_after_enum_refuted"
   ],
   "note": "holds for enums without vectors that are fields or vector elements; false for vectors inside enums and for vectors after a struct that ends with an enum filling its slot"
  },
  {
   "property": "C93",
   "status": "partial",
   "theorems": [
    "C93_object_argument_partial",
    "C93_not_entitled",
    "C93_wrong_type",
    "C93_tree_argument_partial",
    "C93_received_partial",
    "C93_tree_not_entitled",
    "C93_tree_wrong_type"
   ],
   "note": "objects with an enum in the way (C91) and, with objects inside, those C95 leaves out are missing from C93_object_argument_partial and C93_tree_argument_partial"
  },
  {
   "property": "C94",
   "status": "partial",
   "theorems": [
    "C94_reload_partial",
    "C94_not_delegate",
    "C94_moved_away_partial",
    "C94_second_call_refuted"
   ],
   "note": "refuted for a second delegate call in the same function; C94_reload_partial assumes that the object's id field leads back to the object (so no such call before) and leaves out objects with other objects inside and those with an enum in the way (C91)"
  },
  {
   "property": "C95",
   "status": "partial",
   "theorems": [
    "C95_saved_partial",
    "C95_loaded_partial",
    "C95_round_trip_partial"
   ],
   "note": "vectors and enums with objects inside are left out, when saving also vectors that have become shorter, when loading all enums (C91); that the object is not found when one inside it is missing is not covered"
  },
  {
   "property": "C96",
   "status": "partial",
   "theorems": [
    "C96_saved_partial",
    "C96_erased_partial",
    "C96_refuted"
   ],
   "note": "proved for objects inside objects at any depth; wrong for objects in structs without key, where the code takes the struct's first field for an id and can trap (C96_refuted); vectors and enums with objects inside are left out"
  },
  {
   "property": "C97",
   "status": "partial",
   "theorems": [
    "C97_transfer_partial",
    "C97_share_partial",
    "C97_freeze_partial",
    "C97_then_load_partial",
    "C97_shared_stays"
   ],
   "note": "restrictions of C95 and C96: objects in structs without key, in vectors and in enums are left out, and enums when loading; the recipient's slots must not hold longer vectors; hash collisions inside one object are excluded by hypothesis"
  },
  {
   "property": "C98",
   "status": "proved",
   "theorems": [
    "C98_decode",
    "C98_encode",
    "C98_call",
    "C98_identity"
   ],
   "note": "for the message types of C62 and C63; signers and objects as parameters: C64, C93"
  },
  {
   "property": "C99",
   "status": "partial",
   "theorems": [
    "C99_signature_partial",
    "C99_listed_partial",
    "C99_instances",
    "C99_underscore_refuted",
    "C99_enum_refuted",
    "C99_named_id_refuted",
    "C99_same_name_refuted",
    "C99_vector_refuted"
   ],
   "note": "false for names that end in an underscore, for instances of generic enums and for NamedIds as parameters, for structs of the same name in two modules (another function is named) and for vectors of structs used nowhere else (no ABI); proved for all other functions"
  }
 ]
}