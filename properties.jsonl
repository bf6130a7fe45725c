{"id": "C01", "title": "Allocations never overlap", "statement": "A contract that allocates memory any number of times, each request below 2 GiB, receives blocks that lie inside the linear memory, start after the compiler-reserved area, are pairwise disjoint, and the act of allocating changes no byte that was already in memory. The only other outcome is a trap, and it happens only when the host refuses to grow the memory.", "quantifier": "every sequence of allocation requests of every size below 2^31, every initial page count and growth limit", "why_tests_cant": "the sequence length and sizes are unbounded and the interesting cases are the exact page boundaries and 32-bit wrap-around", "anchors": ["crates/move-bytecode-to-wasm/src/memory.rs:setup_module_memory"]}
{"id": "C02", "title": "Allocations are safe for every 32-bit size", "statement": "For every request the allocator is given (sizes come from attacker controlled ABI lengths) it returns a block of that size inside memory that overlaps no earlier block, or traps.", "quantifier": "every 32-bit request size", "why_tests_cant": "only sizes close to 2^31..2^32 misbehave; a unit test picks a handful of small sizes", "anchors": ["crates/move-bytecode-to-wasm/src/memory.rs:setup_module_memory"]}
{"id": "C03", "title": "Addition of u8..u64 is exact or aborts", "statement": "For u8, u16, u32 and u64, `a + b` returns the mathematical sum when it fits the type and otherwise aborts with the arithmetic-overflow error; it never returns a wrapped value.", "quantifier": "all pairs of operands of each width", "why_tests_cant": "2^128 operand pairs for u64", "anchors": ["crates/move-bytecode-to-wasm/src/runtime/integers/add.rs:add_u32,add_u64", "crates/move-bytecode-to-wasm/src/runtime/integers.rs:check_overflow_u8_u16", "crates/move-bytecode-to-wasm/src/translation/intermediate_types/simple_integers.rs:IU8,IU16,IU32,IU64"]}
{"id": "C04", "title": "Addition of u128/u256 is exact or aborts", "statement": "For u128 and u256, `a + b` returns a freshly allocated integer equal to the mathematical sum when it fits and otherwise aborts with the overflow error; operands are not modified.", "quantifier": "all operand values, all operand addresses (including the same address twice), all memory contents", "why_tests_cant": "carry chains over every bit pattern of 2 or 4 limbs cannot be enumerated", "anchors": ["crates/move-bytecode-to-wasm/src/runtime/integers/add.rs:heap_integers_add"]}
{"id": "C05", "title": "Subtraction of u8..u64 is exact or aborts", "statement": "`a - b` returns the difference when a >= b and aborts with the overflow error otherwise.", "quantifier": "all pairs of operands of each width", "why_tests_cant": "2^128 operand pairs", "anchors": ["crates/move-bytecode-to-wasm/src/runtime/integers/sub.rs:sub_u32,sub_u64"]}
{"id": "C06", "title": "Subtraction of u128/u256 is exact or aborts", "statement": "`a - b` returns a fresh integer holding the difference when a >= b and aborts with the overflow error otherwise; operands are not modified.", "quantifier": "all operand values, addresses and memory contents", "why_tests_cant": "borrow chains over every bit pattern cannot be enumerated", "anchors": ["crates/move-bytecode-to-wasm/src/runtime/integers/sub.rs:heap_integers_sub"]}
{"id": "C07", "title": "Multiplication of u8..u64 is exact or aborts", "statement": "`a * b` returns the product when it fits and aborts with the overflow error otherwise.", "quantifier": "all pairs of operands of each width", "why_tests_cant": "2^128 operand pairs", "anchors": ["crates/move-bytecode-to-wasm/src/runtime/integers/mul.rs:mul_u32,mul_u64"]}
{"id": "C08", "title": "Multiplication of u128/u256 is exact or aborts", "statement": "`a * b` on u128/u256 returns a fresh integer equal to the product when it fits and aborts with the overflow error otherwise.", "quantifier": "all operand values", "why_tests_cant": "overflow patterns across limbs are too many to enumerate; existing tests only use a few", "anchors": ["crates/move-bytecode-to-wasm/src/runtime/integers/mul.rs:heap_integers_mul"]}
{"id": "C09", "title": "Division and remainder of u128/u256", "statement": "For a non-zero divisor, `a / b` and `a % b` return fresh integers q and r with a = q*b + r and r < b; for a zero divisor the operation aborts with the division error or traps and never returns a value; operands are not modified.", "quantifier": "all operand values, addresses and memory contents", "why_tests_cant": "a bit-by-bit long division has an execution path per dividend; 2^512 operand pairs", "anchors": ["crates/move-bytecode-to-wasm/src/runtime/integers/div.rs:heap_integers_div_mod,shift_1bit_left,get_bit,set_bit"]}
{"id": "C10", "title": "Shifts of u128/u256", "statement": "`x << n` equals x * 2^n mod 2^width and `x >> n` equals floor(x / 2^n) when n is smaller than the width, and aborts otherwise.", "quantifier": "all operands and all shift amounts", "why_tests_cant": "word-crossing shifts depend on every (value, amount) combination", "anchors": ["crates/move-bytecode-to-wasm/src/runtime/integers/bitwise.rs:heap_int_shift_left,heap_int_shift_right"]}
{"id": "C11", "title": "Shifts of u8..u64", "statement": "`x << n` equals x * 2^n mod 2^width and `x >> n` equals floor(x / 2^n) when n is smaller than the width, and aborts otherwise.", "quantifier": "all operands and all shift amounts of each width", "why_tests_cant": "all width/value/amount combinations", "anchors": ["crates/move-bytecode-to-wasm/src/translation/intermediate_types/simple_integers.rs:bit_shift_left,bit_shift_right"]}
{"id": "C12", "title": "Ordering of u128/u256 is the numeric ordering", "statement": "`a < b` on heap integers returns 1 exactly when the represented numbers satisfy a < b and 0 otherwise.", "quantifier": "all operand values, addresses and memory contents", "why_tests_cant": "the comparison is lexicographic over limbs; wrong limb order or signed comparison only shows for particular patterns", "anchors": ["crates/move-bytecode-to-wasm/src/runtime/integers.rs:check_if_a_less_than_b"]}
{"id": "C13", "title": "Narrowing casts preserve the value or abort", "statement": "Casting an integer to a narrower type returns a value equal to the original when it fits and aborts otherwise; it never silently truncates.", "quantifier": "all source values, for every (source width, target width) pair", "why_tests_cant": "only values just above particular powers of two misbehave", "anchors": ["crates/move-bytecode-to-wasm/src/runtime/integers.rs:downcast_u64_to_u32,downcast_u128_u256_to_u32,downcast_u128_u256_to_u64,check_overflow_u8_u16", "crates/move-bytecode-to-wasm/src/translation/intermediate_types/heap_integers.rs:IU128::cast_from", "crates/move-bytecode-to-wasm/src/translation/intermediate_types/simple_integers.rs:IU8::cast_from,IU16::cast_from,IU32::cast_from,IU64::cast_from"]}
{"id": "C14", "title": "Widening casts preserve the value", "statement": "Casting to a wider integer type returns the same number.", "quantifier": "all source values and width pairs", "why_tests_cant": "all source values", "anchors": ["crates/move-bytecode-to-wasm/src/translation/intermediate_types/heap_integers.rs:IU128::cast_from,IU256::cast_from"]}
{"id": "C15", "title": "Bitwise and/or/xor of u128/u256", "statement": "The operation acts bit by bit on the whole number and returns a fresh integer, leaving operands unmodified.", "quantifier": "all operand values, addresses and memory contents", "why_tests_cant": "all bit patterns", "anchors": ["crates/move-bytecode-to-wasm/src/translation/intermediate_types/heap_integers.rs:bit_or,bit_and,bit_xor"]}
{"id": "C16", "title": "Byte-wise equality", "statement": "Equality of two heap values of n bytes returns 1 exactly when all n bytes agree, reads nothing else and changes nothing.", "quantifier": "all lengths, addresses (aliased or not) and contents", "why_tests_cant": "a difference in any single byte at any position must be noticed", "anchors": ["crates/move-bytecode-to-wasm/src/runtime/equality.rs:a_equals_b,is_zero", "crates/move-bytecode-to-wasm/src/translation/intermediate_types/heap_integers.rs:compare_heap_integers"]}
{"id": "C17", "title": "Zero test of a memory block", "statement": "The zero test used to decide whether a storage slot is empty returns 1 exactly when every byte of the block is zero.", "quantifier": "all lengths, addresses, contents", "why_tests_cant": "any single non-zero byte must be noticed", "anchors": ["crates/move-bytecode-to-wasm/src/runtime/equality.rs:is_zero"]}
{"id": "C18", "title": "Byte swapping is byte reversal", "statement": "The endianness conversions for 32, 64, 128 and 256 bit values reverse the bytes, so applying one twice gives back the input, and they convert between the little-endian memory format and the big-endian ABI/storage format.", "quantifier": "all values, source and destination addresses", "why_tests_cant": "all values; in-place and out-of-place", "anchors": ["crates/move-bytecode-to-wasm/src/runtime/swap.rs:swap_i32_bytes_function,swap_i64_bytes_function,swap_bytes_function"]}
{"id": "C19", "title": "Abort codes are rendered in decimal", "statement": "The revert message of `abort code` contains exactly the decimal digits of the code, without leading zeros.", "quantifier": "all 2^64 abort codes", "why_tests_cant": "2^64 codes", "anchors": ["crates/move-bytecode-to-wasm/src/runtime/integers/ascii.rs:u64_to_ascii_base_10"]}
{"id": "C20", "title": "Abort revert payload is a Solidity Error(string)", "statement": "The revert data produced by `abort` is the ABI encoding of Error(string) carrying the message, with its total length in front.", "quantifier": "all abort codes", "why_tests_cant": "all codes and lengths", "anchors": ["crates/move-bytecode-to-wasm/src/abi_types/error_encoding.rs:build_abi_error_structure,build_abort_error_message", "crates/move-bytecode-to-wasm/src/data.rs:RuntimeErrorData::abi_encode_error_message"]}
{"id": "C21", "title": "vector push_back appends", "statement": "After push_back the vector has the old elements followed by the new one, whether or not the backing store had to be reallocated; no other live memory is changed.", "quantifier": "all vectors, element sizes, capacities and pushed values", "why_tests_cant": "growth happens at capacity boundaries; histories of pushes are unbounded", "anchors": ["crates/move-bytecode-to-wasm/src/runtime/vector.rs:vec_push_back_function,increment_vec_len_function"]}
{"id": "C22", "title": "vector pop_back removes the last element or aborts", "statement": "pop_back on a non-empty vector returns the last element and shortens the vector by one; on an empty vector it aborts with the out-of-bounds error and leaves the vector unchanged.", "quantifier": "all vectors and element sizes", "why_tests_cant": "all lengths and contents", "anchors": ["crates/move-bytecode-to-wasm/src/runtime/vector.rs:vec_pop_back_function,decrement_vec_len_function"]}
{"id": "C23", "title": "vector swap exchanges two elements or aborts", "statement": "swap(i,j) with both indices in range exchanges exactly the two elements; with an index out of range it aborts.", "quantifier": "all vectors, element sizes and index pairs", "why_tests_cant": "the equal-index and boundary cases across all lengths", "anchors": ["crates/move-bytecode-to-wasm/src/runtime/vector.rs:vec_swap_function"]}
{"id": "C24", "title": "vector borrow checks its bounds", "statement": "borrow(i) returns the address of element i when i < length and aborts otherwise; no out-of-range address is ever produced.", "quantifier": "all vectors, element sizes and indices", "why_tests_cant": "all indices including those near 2^32 where address arithmetic wraps", "anchors": ["crates/move-bytecode-to-wasm/src/runtime/vector.rs:vec_borrow_function"]}
{"id": "C25", "title": "vector equality", "statement": "Two vectors compare equal exactly when they have the same length and the same elements.", "quantifier": "all pairs of vectors of all element types", "why_tests_cant": "all pairs including empty ones", "anchors": ["crates/move-bytecode-to-wasm/src/runtime/vector.rs:equality_function", "crates/move-bytecode-to-wasm/src/runtime/equality.rs:vec_equality_heap_type_function"]}
{"id": "C26", "title": "vector copy is independent", "statement": "Copying a vector yields a fresh vector with equal contents that shares no memory with the original.", "quantifier": "all vectors and element types", "why_tests_cant": "aliasing only shows when later writes hit shared memory", "anchors": ["crates/move-bytecode-to-wasm/src/runtime/vector.rs:copy_local_function"]}
{"id": "C27", "title": "ABI unpack inverts pack for unsigned integers", "statement": "Encoding an unsigned integer, bool or address as calldata and decoding it gives back the same value, for every width.", "quantifier": "all values of each width, all buffer addresses", "why_tests_cant": "all values", "anchors": ["crates/move-bytecode-to-wasm/src/runtime/packing/uint.rs", "crates/move-bytecode-to-wasm/src/runtime/packing/heap_uint.rs", "crates/move-bytecode-to-wasm/src/runtime/unpacking/uint.rs", "crates/move-bytecode-to-wasm/src/runtime/unpacking/heap_uint.rs"]}
{"id": "C28", "title": "ABI words conform to Solidity", "statement": "Packing an integer of any width writes the 32-byte big-endian two's-zero-extended word that the Solidity ABI prescribes.", "quantifier": "all values of each width", "why_tests_cant": "all values", "anchors": ["crates/move-bytecode-to-wasm/src/runtime/packing/uint.rs:pack_u32,pack_u64", "crates/move-bytecode-to-wasm/src/runtime/packing/heap_uint.rs:pack_u128,pack_u256,pack_address"]}
{"id": "C29", "title": "Out-of-range calldata words are rejected", "statement": "Decoding a calldata word into a type narrower than 256 bits aborts when the word does not fit the type (Solidity ABI decoders revert on dirty high bits).", "quantifier": "all 256-bit words and all target types", "why_tests_cant": "2^256 words per type", "anchors": ["crates/move-bytecode-to-wasm/src/runtime/unpacking/uint.rs:unpack_u32,unpack_u64", "crates/move-bytecode-to-wasm/src/runtime/unpacking/heap_uint.rs:unpack_u128", "crates/move-bytecode-to-wasm/src/abi_types/unpacking.rs"]}
{"id": "C30", "title": "ABI offsets and lengths are range checked", "statement": "A dynamic offset or length word in calldata that does not fit 32 bits is rejected before use.", "quantifier": "all 256-bit words", "why_tests_cant": "all words", "anchors": ["crates/move-bytecode-to-wasm/src/runtime/abi.rs:validate_pointer_32_bit"]}
{"id": "C31", "title": "ABI round trip for strings", "statement": "Decoding the encoding of a string gives back a string with the same bytes.", "quantifier": "all byte strings of every length", "why_tests_cant": "all lengths modulo 32 and contents", "anchors": ["crates/move-bytecode-to-wasm/src/runtime/packing/string.rs", "crates/move-bytecode-to-wasm/src/runtime/unpacking/string.rs"]}
{"id": "C32", "title": "ABI encoding of vectors conforms to Solidity", "statement": "Packing vectors (of integers, and nested to any depth) produces the head/tail encoding that Solidity prescribes: length word, then elements, with offsets relative to the start of the enclosing block.", "quantifier": "all values of all such types, at all nesting depths", "why_tests_cant": "unbounded nesting and lengths", "anchors": ["crates/move-bytecode-to-wasm/src/runtime/packing/vector.rs:pack_vector_function", "crates/move-bytecode-to-wasm/src/abi_types/packing.rs"]}
{"id": "C33", "title": "Storage slot increment", "statement": "Moving to the next storage slot adds one to the big-endian 256-bit slot number and changes nothing else; the last slot 2^256-1 has no successor and the call fails with an overflow error.", "quantifier": "all slot numbers", "why_tests_cant": "carry propagation over 32 bytes", "anchors": ["crates/move-bytecode-to-wasm/src/runtime/storage.rs:storage_next_slot_function", "crates/move-bytecode-to-wasm/src/runtime/swap.rs"]}
{"id": "C34", "title": "Packed storage fields never share bytes", "statement": "Laying out the fields of a stored struct places every field wholly inside one slot, in declaration order, and no two fields overlap, and the reader and the writer visit identical positions.", "quantifier": "all field lists (all types and lengths)", "why_tests_cant": "unbounded field lists; overlap only appears for particular size sequences", "anchors": ["crates/move-bytecode-to-wasm/src/storage/storage_layout.rs:field_size,compute_fields_storage_size", "crates/move-bytecode-to-wasm/src/runtime/storage.rs:accumulate_or_advance_slot_read,accumulate_or_advance_slot_write,accumulate_or_advance_slot_delete"]}
{"id": "C35", "title": "Storage round trip for structs", "statement": "Writing a struct of integer, bool and address fields to storage and reading it back yields the same field values, and slots outside its footprint are untouched.", "quantifier": "all field lists, all field values, all base slots, all prior storage contents", "why_tests_cant": "unbounded layouts and prior contents", "anchors": ["crates/move-bytecode-to-wasm/src/storage/encoding.rs:add_encode_and_save_into_storage_struct_instructions", "crates/move-bytecode-to-wasm/src/storage/decoding.rs:add_read_and_decode_storage_struct_instructions"]}
{"id": "C36", "title": "Dynamic array element slot", "statement": "Element i of a stored vector lives at slot keccak256(header slot) + the element's slot index, as in Solidity.", "quantifier": "all header slots, element sizes and indices", "why_tests_cant": "addition carries depend on the hash value", "anchors": ["crates/move-bytecode-to-wasm/src/runtime/storage.rs:derive_dyn_array_slot"]}
{"id": "C37", "title": "Shrinking a stored vector clears the removed elements", "statement": "When a vector shrinks and is saved, the storage slots used only by removed elements are zero afterwards.", "quantifier": "all old and new lengths and element sizes", "why_tests_cant": "all length pairs", "anchors": ["crates/move-bytecode-to-wasm/src/storage/encoding.rs:add_encode_and_save_into_storage_vector_instructions"]}
{"id": "C38", "title": "Object slots separate owners and ids", "statement": "The storage location of an object is a function of (owner, id), and distinct (owner, id) pairs use distinct hash preimages, so different objects never share a slot unless keccak256 collides.", "quantifier": "all owners and object ids", "why_tests_cant": "needs an argument over all 64-byte keys", "anchors": ["crates/move-bytecode-to-wasm/src/runtime/storage.rs:write_object_slot,derive_mapping_slot"]}
{"id": "C39", "title": "Object lookup order", "statement": "Looking an object up by id finds it under the transaction originator first, then shared, then (when allowed) frozen; reports the owner where it was found, and aborts with object-not-found when it is in none.", "quantifier": "all storages, ids and originators", "why_tests_cant": "all storages", "anchors": ["crates/move-bytecode-to-wasm/src/runtime/storage.rs:locate_storage_data,locate_storage_owned_data,locate_storage_shared_data,locate_storage_frozen_data"]}
{"id": "C40", "title": "Transactions commit only on success", "statement": "Storage changes reach the chain exactly when the entry point returns status 0; any abort yields status 1, the encoded error as return data, and no committed write.", "quantifier": "all calldata, all storages, all function behaviours", "why_tests_cant": "all failure points", "anchors": ["crates/move-bytecode-to-wasm/src/hostio/entrypoint_router.rs:build_entrypoint_router,abi_types/public_function.rs"]}
{"id": "C41", "title": "Dispatch by selector", "statement": "A call runs exactly the public function whose 4-byte selector equals the first four calldata bytes; with no match the fallback runs, or the call fails with status 1 and changes nothing; empty calldata goes to receive when there is one.", "quantifier": "all calldata and all sets of public functions", "why_tests_cant": "unbounded function sets and calldata", "anchors": ["crates/move-bytecode-to-wasm/src/hostio/entrypoint_router.rs", "crates/move-bytecode-to-wasm/src/abi_types/public_function.rs:build_router_block"]}
{"id": "C42", "title": "Selector strings distinguish functions", "statement": "Two different public functions of a contract are never exposed under the same Solidity name.", "quantifier": "all pairs of Move identifiers", "why_tests_cant": "collisions depend on particular identifier pairs", "anchors": ["crates/move-bytecode-to-wasm/src/utils.rs:snake_to_camel,abi_types/abi_encoding.rs:move_signature_to_abi_selector"]}
{"id": "C43", "title": "The constructor runs at most once", "statement": "`init` runs on the first constructor call only; every later call leaves the state unchanged.", "quantifier": "all histories of calls", "why_tests_cant": "unbounded call histories", "anchors": ["crates/move-bytecode-to-wasm/src/constructor.rs"]}
{"id": "C44", "title": "Fresh object ids do not repeat", "statement": "Every object id produced by a contract is derived from a preimage that was not used for any earlier id of the contract.", "quantifier": "all histories of id generation across blocks", "why_tests_cant": "2^32 ids per block are needed to reach the wrap-around", "anchors": ["crates/move-bytecode-to-wasm/src/native_functions/object.rs:add_native_fresh_id_fn"]}
{"id": "C45", "title": "Frozen objects are immutable", "statement": "An object that has been frozen can no longer be transferred, shared or deleted.", "quantifier": "all object histories", "why_tests_cant": "unbounded histories", "anchors": ["crates/move-bytecode-to-wasm/src/native_functions/transfer.rs"]}
{"id": "C46", "title": "Transfers move the object", "statement": "After a successful transfer the object is stored under the new owner with the same content and is gone from the old owner's slot.", "quantifier": "all objects, owners and recipients", "why_tests_cant": "all storages", "anchors": ["crates/move-bytecode-to-wasm/src/native_functions/transfer.rs:add_transfer_object_fn,add_share_object_fn,add_freeze_object_fn"]}
{"id": "C47", "title": "Dynamic field keys are distinguished", "statement": "Different dynamic field names on the same parent are stored under different hash preimages.", "quantifier": "all pairs of keys of a type", "why_tests_cant": "collisions need specific pairs of variable-length keys", "anchors": ["crates/move-bytecode-to-wasm/src/native_functions/dynamic_field.rs:add_hash_type_and_key_fn,copy_data_to_memory"]}
{"id": "C48", "title": "Dynamic field key hashing terminates for every key", "statement": "Computing the storage id of a dynamic field completes for every key value.", "quantifier": "all key values including empty vectors and strings", "why_tests_cant": "non-termination cannot be observed by a test", "anchors": ["crates/move-bytecode-to-wasm/src/native_functions/dynamic_field.rs:copy_data_to_memory"]}
{"id": "C49", "title": "UTF-8 validation", "statement": "`string::utf8` accepts a byte vector exactly when it is well-formed UTF-8.", "quantifier": "all byte vectors and all memory around them", "why_tests_cant": "unbounded inputs; malformed tails read neighbouring memory", "anchors": ["crates/move-bytecode-to-wasm/src/native_functions/string.rs:add_internal_check_utf8"]}
{"id": "C50", "title": "Character boundary test", "statement": "`is_char_boundary(i)` returns true exactly when i is 0, the length, or the index of a byte that starts a character.", "quantifier": "all byte vectors and 64-bit indices", "why_tests_cant": "2^64 indices", "anchors": ["crates/move-bytecode-to-wasm/src/native_functions/string.rs:add_internal_is_char_boundary"]}
{"id": "C51", "title": "Substring extraction", "statement": "`sub_string(i,j)` for i <= j <= length returns a fresh string holding exactly bytes i..j.", "quantifier": "all strings and index pairs", "why_tests_cant": "all lengths and indices", "anchors": ["crates/move-bytecode-to-wasm/src/native_functions/string.rs:add_internal_sub_string"]}
{"id": "C52", "title": "Substring search", "statement": "`index_of(r)` returns the least index at which r occurs, or the length when it does not occur.", "quantifier": "all pairs of byte strings", "why_tests_cant": "all pairs of strings", "anchors": ["crates/move-bytecode-to-wasm/src/native_functions/string.rs:add_internal_index_of"]}
{"id": "C53", "title": "Generic instantiation removes all type parameters", "statement": "Instantiating a type with concrete types leaves no type parameter, and leaves non-generic types unchanged; instantiation composes.", "quantifier": "all types at all nesting depths", "why_tests_cant": "unbounded type nesting", "anchors": ["crates/move-bytecode-to-wasm/src/generics.rs:replace_type_parameters,type_contains_generics"]}
{"id": "C54", "title": "Function results survive the return convention", "statement": "The values a function returns are exactly those its caller reads back, for any tuple of return types.", "quantifier": "all result type lists and values", "why_tests_cant": "unbounded tuples", "anchors": ["crates/move-bytecode-to-wasm/src/translation/functions.rs:prepare_function_return,add_unpack_function_return_values_instructions"]}
{"id": "C55", "title": "Call value seen by the contract", "statement": "`tx_context::msg_value()`, `block_basefee()` and `gas_price()` return the number supplied by the chain.", "quantifier": "all 256-bit values", "why_tests_cant": "only non-palindromic values show a byte-order error, and the test host writes its own format", "anchors": ["crates/move-bytecode-to-wasm/src/native_functions/transaction.rs:add_native_msg_value_fn"]}
{"id": "C56", "title": "ABI calldata pointer safety for strings and vectors", "statement": "Decoding never hands the contract a vector whose elements lie outside the memory that was allocated for it.", "quantifier": "all calldata", "why_tests_cant": "all calldata", "anchors": ["crates/move-bytecode-to-wasm/src/runtime/unpacking/vector.rs,runtime/unpacking/string.rs,runtime/vector.rs:allocate_vector_with_header"]}
{"id": "C57", "title": "Constant decoding", "statement": "A constant's ULEB128 length prefix decodes to the encoded length.", "quantifier": "all lengths", "why_tests_cant": "all lengths", "anchors": ["crates/move-bytecode-to-wasm/src/utils.rs:decode_uleb128"]}
{"id": "C58", "title": "Compiled runtime errors have distinct blobs", "statement": "Each runtime error is assigned its own region of the data segment, deduplicated, non-overlapping, after the reserved area and below the heap start.", "quantifier": "all sequences of error registrations", "why_tests_cant": "all registration orders", "anchors": ["crates/move-bytecode-to-wasm/src/data.rs:RuntimeErrorData::get"]}
{"id": "C59", "title": "A copy fails only when memory is exhausted", "statement": "Copying a value traps only when the linear memory cannot grow enough to hold the copy.", "quantifier": "all values of all types, all memory states and limits", "why_tests_cant": "the failure needs the heap to end exactly at a page boundary", "anchors": ["crates/move-bytecode-to-wasm/src/runtime/copy.rs", "crates/move-bytecode-to-wasm/src/runtime/vector.rs:copy_local"]}
{"id": "C60", "title": "Copies and comparisons of nested values are deep", "statement": "For values of any type (integers, addresses, vectors, structs and enums nested in any way) a copy is equal to the original, lives in fresh memory and leaves the original alone; comparing two values gives true exactly when they are equal.", "quantifier": "all types at all nesting depths and all values", "why_tests_cant": "unbounded nesting", "anchors": ["crates/move-bytecode-to-wasm/src/translation/intermediate_types/structs.rs:copy_local_instructions,equality", "crates/move-bytecode-to-wasm/src/translation/intermediate_types/enums.rs", "crates/move-bytecode-to-wasm/src/translation/intermediate_types/user_type_fields.rs:copy_fields,compare_fields"]}
{"id": "C61", "title": "References follow a relocated vector", "statement": "When push_back moves a vector to a larger buffer, every other reference to it that is refreshed afterwards designates the moved vector.", "quantifier": "all element types, lengths, capacities and chains of relocations", "why_tests_cant": "unbounded push sequences", "anchors": ["crates/move-bytecode-to-wasm/src/runtime/vector.rs:vec_update_mut_ref,push_back"]}
{"id": "C62", "title": "Argument decoding agrees with the Solidity ABI", "statement": "Whenever calldata is a valid ABI message for the parameter types (with any offsets, canonical or not), the function receives exactly the values the message denotes, each in memory of its own, and no two different value lists are denoted by one message.", "quantifier": "all parameter type lists nested to any depth, all messages", "why_tests_cant": "unbounded nesting, arbitrary offsets", "anchors": ["crates/move-bytecode-to-wasm/src/abi_types/unpacking.rs:build_unpack_instructions,add_unpack_instructions", "crates/move-bytecode-to-wasm/src/runtime/unpacking/vector.rs", "crates/move-bytecode-to-wasm/src/runtime/unpacking/structs.rs", "crates/move-bytecode-to-wasm/src/runtime/unpacking/string.rs"]}
{"id": "C63", "title": "Return data is the canonical ABI encoding", "statement": "The bytes an entry point returns are the canonical Solidity ABI encoding of the tuple of its results, decode to the same values, and producing them changes nothing the contract holds.", "quantifier": "all result type lists nested to any depth, all values", "why_tests_cant": "unbounded nesting", "anchors": ["crates/move-bytecode-to-wasm/src/abi_types/packing.rs:build_pack_instructions", "crates/move-bytecode-to-wasm/src/runtime/packing/vector.rs", "crates/move-bytecode-to-wasm/src/runtime/packing/structs.rs", "crates/move-bytecode-to-wasm/src/runtime/packing/string.rs"]}
{"id": "C64", "title": "A signer parameter is the transaction originator", "statement": "The code that supplies the `signer` argument of a public function hands the function a pointer to the transaction originator's address.", "quantifier": "all states and originators", "why_tests_cant": "the claim is about every state; the existing tests are marked should_panic", "anchors": ["crates/move-bytecode-to-wasm/src/runtime/unpacking/signer.rs:inject_signer", "crates/move-bytecode-to-wasm/src/vm_handled_types/signer.rs:inject"]}
{"id": "C65", "title": "Sender and calldata seen by the contract", "statement": "`tx_context::sender()` returns the address of the caller of the contract and `tx_context::data()` the calldata of the transaction.", "quantifier": "all callers, all calldata, all later states of the transaction", "why_tests_cant": "all calldata and states", "anchors": ["crates/move-bytecode-to-wasm/src/native_functions/transaction.rs:add_native_sender_fn,add_native_data_fn"]}
{"id": "C66", "title": "An abort ends the whole call chain", "statement": "When a function aborts, or a runtime check in it fails, no function on the call stack executes anything afterwards: the outermost function comes back in the state of the abort.", "quantifier": "all call depths, all callers, any position of the calls inside blocks, branches and loops", "why_tests_cant": "unbounded call depth and control flow", "anchors": ["crates/move-bytecode-to-wasm/src/translation.rs:call_indirect", "crates/move-bytecode-to-wasm/src/wasm_builder_extensions.rs:add_propagate_error_instructions"]}
{"id": "C67", "title": "Storage round trip for nested values", "statement": "Saving an object whose fields are integers, addresses, vectors and structs nested to any depth, and loading it in any later state with the same storage, gives an object with the same field values; slots outside the object's areas keep their contents.", "quantifier": "all field types nested to any depth, all values, all storages and memories", "why_tests_cant": "unbounded nesting, arbitrary later states", "anchors": ["crates/move-bytecode-to-wasm/src/storage/encoding.rs", "crates/move-bytecode-to-wasm/src/storage/decoding.rs", "crates/move-bytecode-to-wasm/src/runtime/storage.rs:add_encode_and_save_into_storage_fn,add_read_and_decode_from_storage_fn"]}
{"id": "C68", "title": "Loading the wrong object is reported", "statement": "Loading an object from an empty slot, or from a slot that holds an object of another type, ends with the corresponding runtime error and never yields a value.", "quantifier": "all storages, all types", "why_tests_cant": "all storage contents", "anchors": ["crates/move-bytecode-to-wasm/src/runtime/storage.rs:add_read_and_decode_from_storage_fn"]}
{"id": "C69", "title": "Dynamic fields are found again", "statement": "After a dynamic field was added to a parent, every later lookup in a state with the same storage reports that the field exists, with its type and with no other type, and borrowing or removing it gives the same values; other slots keep their contents.", "quantifier": "all field types nested to any depth, all values, parents, ids, storages and later states", "why_tests_cant": "unbounded nesting, arbitrary later states", "anchors": ["crates/move-bytecode-to-wasm/src/native_functions/dynamic_field.rs:add_child_object_fn,add_borrow_object_fn,add_remove_child_object_fn,add_has_child_object_fn,add_has_child_object_with_ty_fn"]}
{"id": "C70", "title": "Dynamic field lookups reflect storage", "statement": "Whether a dynamic field exists is answered from its storage slot alone, without changing storage, and borrowing a field that is not there or has another type fails with the error for it.", "quantifier": "all storages, parents and ids", "why_tests_cant": "all storage contents", "anchors": ["crates/move-bytecode-to-wasm/src/native_functions/dynamic_field.rs:add_has_child_object_fn,add_has_child_object_with_ty_fn,add_borrow_object_fn"]}
{"id": "C71", "title": "Generating an id disturbs nothing else", "statement": "Generating an object id completes unless memory runs out, changes exactly one storage word (the counter), commits the storage and leaves the memory in use as it is.", "quantifier": "all states and storages", "why_tests_cant": "all states", "anchors": ["crates/move-bytecode-to-wasm/src/native_functions/object.rs:add_native_fresh_id_fn"]}
{"id": "C72", "title": "Deleting clears the object's storage", "statement": "Deleting an object clears every storage slot it used, including the elements of its vectors, and changes no other slot.", "quantifier": "all objects with fields nested to any depth, owners, ids and storages", "why_tests_cant": "unbounded nesting, all storages", "anchors": ["crates/move-bytecode-to-wasm/src/runtime/storage.rs:add_delete_struct_from_storage_fn", "crates/move-bytecode-to-wasm/src/storage/encoding.rs"]}
{"id": "C73", "title": "Shared objects stay shared", "statement": "A shared object can be neither transferred nor frozen: both calls fail with the error for it and change nothing; sharing it again changes nothing.", "quantifier": "all shared objects and states", "why_tests_cant": "all states", "anchors": ["crates/move-bytecode-to-wasm/src/native_functions/transfer.rs:add_transfer_object_fn,add_freeze_object_fn,add_share_object_fn"]}
{"id": "C74", "title": "Custom errors reach the caller", "statement": "`error::revert(e)` ends the transaction with status 1 and the 4-byte selector of the error type followed by the standard ABI encoding of the fields of e as revert data; nothing after it is executed.", "quantifier": "all error types with fields nested to any depth, all values, all call chains and all code around the call", "why_tests_cant": "unbounded nesting, arbitrary surrounding code", "anchors": ["crates/move-bytecode-to-wasm/src/native_functions/abi_error.rs:add_revert_fn", "crates/move-bytecode-to-wasm/src/abi_types/error_encoding.rs:build_custom_error_message", "crates/move-bytecode-to-wasm/src/native_functions.rs:is_fallible"]}
{"id": "C75", "title": "A public function is called with what the message says and answers with what it returns", "statement": "Calling a public function with the standard ABI encoding of some values runs the function once, on representations of those values in fresh memory; the return data of the transaction is the standard ABI encoding of what it returns, or the data of the error it ends with.", "quantifier": "all functions, argument and result types nested to any depth, all values, all contracts", "why_tests_cant": "unbounded nesting, arbitrary functions", "anchors": ["crates/move-bytecode-to-wasm/src/abi_types/public_function.rs:wrap_public_function,build_router_block", "crates/move-bytecode-to-wasm/src/hostio/entrypoint_router.rs", "crates/move-bytecode-to-wasm/src/translation/functions.rs"]}
{"id": "C76", "title": "Events are logged as Solidity defines", "statement": "Emitting an event adds exactly one log to the transaction: the hash of the event's signature (unless the event is anonymous) and one topic per indexed field, in order, followed by the standard ABI encoding of the other fields. The topic of a simple value is its word, of a string the hash of its bytes, of a vector or struct the hash of its in-place encoding. Nothing else changes.", "quantifier": "all event types with fields nested to any depth, all values, all states", "why_tests_cant": "unbounded nesting and sizes, all states", "anchors": ["crates/move-bytecode-to-wasm/src/native_functions/event.rs:add_emit_log_fn,add_encode_indexed_vector_instructions,add_encode_indexed_struct_instructions,add_encode_indexed_string"]}
{"id": "C77", "title": "Compiled control flow follows the bytecode", "statement": "A compiled function executes the basic blocks of its bytecode in the order the bytecode's branches say: it ends with the same result, error or trap, in the same state, as running the blocks one after another from the first.", "quantifier": "all graphs of basic blocks (nested ifs, loops with breaks and continues, matches over enums), all block contents, arguments and states, runs of any length", "why_tests_cant": "unbounded numbers of blocks, nesting and iterations", "anchors": ["crates/move-bytecode-to-wasm/src/translation/flow.rs:Flow,build", "crates/move-bytecode-to-wasm/src/translation.rs:translate_flow,ControlTargets,translate_function"]}
{"id": "C78", "title": "Changes to objects are kept", "statement": "When an entry function returns, storage has every object it took by mutable reference or by value and did not delete, exactly as the function left it in memory, and a later transaction that loads the object sees those values. The return changes no other storage.", "quantifier": "all entry functions, return points nested to any depth, any number of object arguments, all object types and values, all storages", "why_tests_cant": "unbounded numbers and sizes of objects, all program points and histories", "anchors": ["crates/move-bytecode-to-wasm/src/runtime/storage.rs:cache_storage_object_changes", "crates/move-bytecode-to-wasm/src/translation.rs:add_cache_storage_object_instructions", "crates/move-bytecode-to-wasm/src/runtime/storage.rs:locate_struct_slot"]}
{"id": "C79", "title": "Changes to dynamic fields are kept", "statement": "When the transaction ends, storage has every dynamic field that was borrowed mutably in it, exactly as it was left in memory; everything else the transaction wrote is made permanent unchanged.", "quantifier": "all programs with any number of places that borrow dynamic fields, run any number of times, all field types and values", "why_tests_cant": "arbitrary execution histories and numbers of fields", "anchors": ["crates/move-bytecode-to-wasm/src/runtime/storage.rs:add_commit_changes_to_storage_fn", "crates/move-bytecode-to-wasm/src/translation/bytecodes/dynamic_fields.rs"]}
{"id": "C80", "title": "References reach the part they name", "statement": "A reference made by borrowing a field, a field of an enum's variant or an element of a vector, through any chain of such borrows, reads the current value of exactly that part, as an independent copy. Writing through it replaces exactly that part of the whole value: the rest of the value, other memory and other references keep their contents.", "quantifier": "all types and values nested to any depth, all chains of borrows, all new values, all memory states", "why_tests_cant": "unbounded nesting of types and vector lengths, all chains of borrows", "anchors": ["crates/move-bytecode-to-wasm/src/translation/bytecodes/structs.rs:borrow_field", "crates/move-bytecode-to-wasm/src/translation/bytecodes/enums.rs:unpack_variant_ref", "crates/move-bytecode-to-wasm/src/translation/intermediate_types.rs:add_read_ref_instructions,add_write_ref_instructions", "crates/move-bytecode-to-wasm/src/runtime/vector.rs:add_vec_borrow_fn"]}
{"id": "C81", "title": "Structs, enums and locals keep their values", "statement": "Packing values into a struct or an enum variant and unpacking it gives back the same values in the same order; a value stored in a local comes back unchanged when moved or copied out, and a copy is independent of the local. A newly packed object has the given id and fields and no owner. None of this changes other values in memory.", "quantifier": "all types nested to any depth, all numbers of fields, all values and memory states", "why_tests_cant": "unbounded nesting and sizes, all memory states", "anchors": ["crates/move-bytecode-to-wasm/src/translation/bytecodes/structs.rs:pack,unpack,unpack_fields", "crates/move-bytecode-to-wasm/src/translation/bytecodes/enums.rs:pack_variant,unpack_variant", "crates/move-bytecode-to-wasm/src/translation/intermediate_types.rs:box_local_instructions,move_local_instructions,copy_local_instructions", "crates/move-bytecode-to-wasm/src/translation.rs:Pack,PackGeneric,StLoc,MoveLoc,CopyLoc"]}
{"id": "C82", "title": "A function works on what its caller passed", "statement": "A called function receives exactly the values its caller passed, in order; what it writes or appends through a mutable reference parameter is what the caller sees in its own value afterwards; a mutable reference that a function returns designates the caller's value.", "quantifier": "all argument lists mixing values and references of every type, all values, any number of appends (with or without relocation of the vector)", "why_tests_cant": "arbitrary argument lists, vector sizes and memory states; the relocation happens only when the capacity is exhausted", "anchors": ["crates/move-bytecode-to-wasm/src/translation/functions.rs:prepare_function_arguments,prepare_function_return", "crates/move-bytecode-to-wasm/src/translation.rs:box_args,call_indirect", "crates/move-bytecode-to-wasm/src/runtime/vector.rs:vec_update_mut_ref,push_back"]}
{"id": "C83", "title": "Calls to other contracts are the ones the program asks for", "statement": "Calling an external function makes exactly one call, of the kind (call, delegate call, static call), to the account, with the amount and gas configured, carrying the function's selector and the standard ABI encoding of the arguments. The result holds the status of the call and, after success, the value the reply encodes. The configuration and everything else in memory stay as they were, so that using it again makes the same call.", "quantifier": "all configurations, argument and result types nested to any depth, all values, all replies of the other contract, all states", "why_tests_cant": "the other contract's behaviour and the values are arbitrary; in-place changes show only on reuse", "anchors": ["crates/move-bytecode-to-wasm/src/native_functions/contract_calls.rs:add_external_contract_call_fn"]}
{"id": "C84", "title": "Balances and code sizes are those of the account asked about", "statement": "Asking for the balance or the code size of an address gives the number the chain has for that address at that moment and changes nothing.", "quantifier": "all addresses, chain states and memory states", "why_tests_cant": "all 160-bit addresses and 256-bit balances", "anchors": ["crates/move-bytecode-to-wasm/src/native_functions/account.rs:add_native_account_balance_fn,add_native_account_code_size_fn"]}
{"id": "C85", "title": "Peeping at an object of another account shows what storage has", "statement": "Reading an object through its owner's address and its id gives a reference to an object with the owner, id and fields that storage has for it. Storage and the memory the program had do not change. When the account has no such object, or one of another type, the error for it is reported.", "quantifier": "all owners, ids, object types with fields nested to any depth, storage contents and memory states", "why_tests_cant": "the storage comes from arbitrary earlier transactions", "anchors": ["crates/move-bytecode-to-wasm/src/native_functions/peep.rs:add_peep_fn"]}
{"id": "C86", "title": "Named objects have one id for each tag type", "statement": "The id of a named object depends on its tag type only: it is the same in every transaction, and different for different types.", "quantifier": "all tag types of all modules, all states", "why_tests_cant": "no test ranges over all pairs of types and states", "anchors": ["crates/move-bytecode-to-wasm/src/native_functions/object.rs:add_compute_named_id_fn"]}
{"id": "C87", "title": "References to ids lead to the id of the object", "statement": "The references to ids that the framework hands out for objects and for named ids lead to the id of that object, and obtaining one changes nothing.", "quantifier": "all objects, ids and memory states", "why_tests_cant": "memory layouts are arbitrary", "anchors": ["crates/move-bytecode-to-wasm/src/native_functions/object.rs:add_as_uid_fn,add_borrow_uid_fn"]}
{"id": "C88", "title": "Type names name the type", "statement": "The name of a type is a string that is the same for the same type and different for different types, including module addresses and type arguments.", "quantifier": "all types, nested to any depth", "why_tests_cant": "pairs of types nested to any depth", "anchors": ["crates/move-bytecode-to-wasm/src/native_functions/type_name.rs:add_type_name_get_fn", "crates/move-bytecode-to-wasm/src/translation/intermediate_types.rs:get_type_name"]}
{"id": "C89", "title": "Stored objects are accepted as their own type only", "statement": "An object that is in storage under one type is not accepted where another type is expected, and is accepted for its own type in every version of the program.", "quantifier": "all pairs of types, all versions of the modules", "why_tests_cant": "collisions are over all pairs of names; a test only sees the few types it has", "anchors": ["crates/move-bytecode-to-wasm/src/translation/intermediate_types.rs:get_hash,process_hash", "crates/move-bytecode-to-wasm/src/hasher.rs:get_hasher"]}
{"id": "C90", "title": "Enums go to their place in storage", "statement": "Saving an object with enum fields puts each enum's variant number and the variant's fields one after another, starts the next field behind the room of the largest variant, clears the slots of that room the variant does not use, and changes no slot outside the object.", "quantifier": "all object types with enums nested to any depth, all values, all previous storages", "why_tests_cant": "nesting and previous contents are unbounded; the position of a field depends on every other variant", "anchors": ["crates/move-bytecode-to-wasm/src/storage/encoding.rs:add_encode_and_save_into_storage_enum_instructions", "crates/move-bytecode-to-wasm/src/runtime/enums.rs:compute_enum_storage_tail_position", "crates/move-bytecode-to-wasm/src/storage/storage_layout.rs:compute_enum_storage_size"]}
{"id": "C91", "title": "Objects with enums come back from storage", "statement": "An object with enum fields, saved and then loaded in any later state with the same storage, has the same fields again, including those after the enums.", "quantifier": "all object types with enums nested to any depth, all variants and values", "why_tests_cant": "whether a field is read correctly depends on the sizes of all variants and on the stored one", "anchors": ["crates/move-bytecode-to-wasm/src/storage/decoding.rs:add_read_and_decode_storage_enum_instructions"]}
{"id": "C92", "title": "Deleting objects with enums leaves nothing", "statement": "Deleting an object with enum fields clears every slot it used, including the elements of vectors inside and after the enums, and no other.", "quantifier": "all object types with enums, all values and storages", "why_tests_cant": "unbounded nesting, all storages", "anchors": ["crates/move-bytecode-to-wasm/src/storage/common.rs:add_delete_storage_enum_instructions,add_delete_field_instructions"]}
{"id": "C93", "title": "Callers can pass only objects they may use", "statement": "An entry function's object parameter is filled from the 32-byte id in the calldata with the object of that id that storage has for the caller, for everybody (shared) or, for immutable references, for nobody (frozen); parameters declared owned, shared or frozen take only that kind. Any other id, or an object of another type, makes the call fail. Storage does not change.", "quantifier": "all object types and values, all storages and ids, all kinds of parameters", "why_tests_cant": "who holds the object, its type and contents are arbitrary", "anchors": ["crates/move-bytecode-to-wasm/src/abi_types/unpacking.rs:build_unpack_instructions", "crates/move-bytecode-to-wasm/src/abi_types/unpacking.rs:load_struct_storage_id", "crates/move-bytecode-to-wasm/src/runtime/unpacking/structs.rs:unpack_storage_struct_function"]}
{"id": "C94", "title": "After a delegate call the caller sees what the callee did to its objects", "statement": "When a function passes the ids of its objects to a contract by delegate call, after the call every such object has in memory, at the same place, the values that the callee left in storage, nothing else in memory changes, and the object is still right after any further call; when the object is no longer the sender's or shared the transaction is aborted; after other kinds of call nothing is loaded.", "quantifier": "all lists of objects, types and values, all changes that the callee makes, any number of calls", "why_tests_cant": "what the callee writes is arbitrary, and so is the number of calls", "anchors": ["crates/move-bytecode-to-wasm/src/native_functions/contract_calls.rs:add_external_contract_call_fn", "crates/move-bytecode-to-wasm/src/translation.rs:translate_instruction"]}
{"id": "C95", "title": "Objects inside an object are saved and loaded with it", "statement": "Saving an object that has other objects inside, directly or in structs and at any depth, puts each of them into the slots of an object that the containing one has, with its id in the field's place, whatever owner it had before, and changes no other slot; loading it gives the same values, each inner object owned by the one that has it.", "quantifier": "all shapes of objects with objects inside, of any depth and width, all values, all states of storage", "why_tests_cant": "the nesting is unbounded and slots come from hashes", "anchors": ["crates/move-bytecode-to-wasm/src/runtime/storage.rs:add_encode_and_save_into_storage_fn,add_read_and_decode_from_storage_fn", "crates/move-bytecode-to-wasm/src/storage/encoding.rs:add_encode_and_save_into_storage_struct_instructions,add_encode_intermediate_type_instructions", "crates/move-bytecode-to-wasm/src/storage/decoding.rs:add_read_and_decode_storage_struct_instructions,add_decode_intermediate_type_instructions"]}
{"id": "C96", "title": "Objects put into other objects leave their former owner", "statement": "When an object is saved at the end of a transaction or in a transfer, every object that has been put into it during the transaction, at any depth, is no longer in storage under its former owner; it is only under the object that has it now, and nothing else in storage changes. Objects that were inside before or are new are not touched.", "quantifier": "all objects with objects inside, of any depth and width, all former owners, all values, all states of storage", "why_tests_cant": "the nesting and the former places are unbounded, and a left-over copy shows only in a later transaction of the former owner", "anchors": ["crates/move-bytecode-to-wasm/src/runtime/storage.rs:add_check_and_delete_struct_tto_fields_fn,add_delete_tto_object_fn,cache_storage_object_changes,add_delete_struct_from_storage_fn", "crates/move-bytecode-to-wasm/src/storage/common.rs:add_delete_field_instructions"]}
{"id": "C97", "title": "Transfers of objects with objects inside", "statement": "When an object with other objects inside is transferred, shared or frozen, it is in storage under its new owner with the same fields, each object inside is under the object that has it, nothing is left under the former owner or in the former places of objects put into it during the transaction, and nothing else in storage changes; whoever loads it later gets the same fields and the same objects inside. A shared one is not transferred or frozen.", "quantifier": "all objects with objects inside, of any depth and width, all owners and recipients, all values, all states of storage", "why_tests_cant": "the nesting, the values and the former places are unbounded, and a left-over or lost part shows only in a later transaction", "anchors": ["crates/move-bytecode-to-wasm/src/native_functions/transfer.rs:add_transfer_object_fn,add_share_object_fn,add_freeze_object_fn", "crates/move-bytecode-to-wasm/src/runtime/storage.rs:add_check_and_delete_struct_tto_fields_fn,add_encode_and_save_into_storage_fn,add_delete_struct_from_storage_fn"]}
{"id": "C98", "title": "Parameters and results passed by reference in public functions", "statement": "A public function may take and return references. Whether a parameter or result is passed by value or by reference does not show in calldata or return data: calldata is decoded to the same values, a function is given the address of its own fresh copy of each value passed by reference, disjoint from everything else, and a result passed by reference is encoded as the value it leads to. In particular `fun id(x: &T): &T { x }` returns the bytes it was sent.", "quantifier": "all lists of parameter and result types, by value or by reference, all values, all functions, all memory states", "why_tests_cant": "types nest without bound and the layout of memory and message depends on all of them", "anchors": ["crates/move-bytecode-to-wasm/src/runtime/unpacking/reference.rs:unpack_reference_function", "crates/move-bytecode-to-wasm/src/runtime/packing/reference.rs:pack_reference_function", "crates/move-bytecode-to-wasm/src/abi_types/unpacking.rs:build_unpack_instructions,add_unpack_instructions", "crates/move-bytecode-to-wasm/src/abi_types/packing.rs:build_pack_instructions,add_pack_instructions", "crates/move-bytecode-to-wasm/src/abi_types/public_function.rs:wrap_public_function"]}
{"id": "C99", "title": "The published ABI names the functions the contract answers to", "statement": "For every entry function the generated JSON ABI has an item, and the function signature a caller computes from that item (name and canonical types of the inputs, tuples expanded) is the one whose hash the contract compares the selector with; so a call made with the published ABI reaches that function.", "quantifier": "all function names, all parameter lists with structs, vectors, enums and objects nested without bound, all orders in which structs are collected", "why_tests_cant": "two independent programs compute the two names from types that nest without bound; tests compare a few fixtures", "anchors": ["crates/move-evm-abi-generator/src/abi.rs:process_functions,process_structs,process_storage_struct", "crates/move-evm-abi-generator/src/json_format.rs:encode_for_json_abi,process_io", "crates/move-evm-abi-generator/src/types.rs:from_intermediate_type,name", "crates/move-evm-abi-generator/src/common.rs:snake_to_camel", "crates/move-bytecode-to-wasm/src/abi_types/abi_encoding.rs:move_signature_to_abi_selector,solidity_name", "crates/move-bytecode-to-wasm/src/utils.rs:snake_to_camel"]}
{"id": "C100", "title": "The published ABI names the events and errors of the contract", "statement": "The signature that the generated JSON ABI gives for an event is the one whose hash is the event's first topic, and that for an error is the one whose hash starts the data of a revert with it; so a client that decodes logs and reverts with the published ABI recognizes them.", "quantifier": "all names, all field lists with structs, vectors and enums nested without bound", "why_tests_cant": "two independent programs compute the two names from types that nest without bound", "anchors": ["crates/move-evm-abi-generator/src/abi.rs:process_events,process_abi_errors", "crates/move-evm-abi-generator/src/json_format.rs:process_events,process_errors,encode_for_json_abi", "crates/move-bytecode-to-wasm/src/abi_types/event_encoding.rs:move_signature_to_event_signature_hash", "crates/move-bytecode-to-wasm/src/abi_types/error_encoding.rs:move_signature_to_abi_selector", "crates/move-bytecode-to-wasm/src/abi_types/sol_name.rs:sol_name"]}
{"id": "C101", "title": "The published ABI gives the types of arguments and results", "statement": "What a function returns, read with the types that the generated JSON ABI gives for its outputs, is the values that the Move function returned, as a caller sees them (enums by number, ids as 32 bytes); and what a caller makes with the types of its inputs is calldata that the contract decodes to these arguments.", "quantifier": "all parameter and result lists with structs, vectors, enums, ids and references nested without bound, all values, all orders in which structs are collected", "why_tests_cant": "the types nest without bound and the two programs that treat them share nothing but their input", "anchors": ["crates/move-evm-abi-generator/src/abi.rs:process_functions,process_return_type,process_structs", "crates/move-evm-abi-generator/src/json_format.rs:process_functions,process_io,encode_for_json_abi", "crates/move-evm-abi-generator/src/types.rs:from_intermediate_type", "crates/move-bytecode-to-wasm/src/abi_types/packing.rs:add_pack_instructions,add_pack_instructions_dynamic", "crates/move-bytecode-to-wasm/src/runtime/packing/structs.rs:pack_struct_function", "crates/move-bytecode-to-wasm/src/abi_types/unpacking.rs:add_unpack_instructions"]}
