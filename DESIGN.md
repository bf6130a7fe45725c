# Design

## What is being verified

move-stylus compiles Move bytecode to WebAssembly.  Most of what a contract user
relies on is WASM code that the Rust sources *emit* through walrus' builder API:
the allocator, checked arithmetic, vectors, ABI coding, storage coding, object
lookup, the entry-point router.  The model therefore has three layers.

1. `Wasm.v`: a deep embedding of the WASM subset the compiler emits (i32/i64
   arithmetic, locals, the three globals, linear memory with bounds checks and
   `memory.grow`, structured control flow, calls, the Stylus host imports used)
   with an executable, fuelled interpreter.
2. `Rt*.v`: the emitted functions, transcribed instruction by instruction from the builder
   chains in `/repo`.  A Rust generator that is parametrised (by a type, a size, a
   list of fields) becomes a Gallina function returning WASM code.  Each
   definition cites file and lines.
3. `Logic.v` and `*Proofs.v`: a total-correctness weakest-precondition calculus
   proved sound against the interpreter, and the specifications.

Parts of the compiler that are ordinary Rust functions (name mangling, type substitution,
layout computation, error table) are modelled as Gallina functions directly.

The theorems claimed in MANIFEST.json live in `Props*.v`; each is stated against
`Spec.v`-style definitions (numbers, byte lists, Solidity ABI) that do not
mention the emitted code, and is followed by a concrete Example meeting its hypotheses
and by `Print Assumptions`.

Statement shape: `returns f args w vals w'` means that running the emitted
function `f` on `args` in machine state `w` terminates and leaves `vals` and
`w'`.  The interpreter is deterministic (proved: `returns_unique`), so this is total
correctness for every execution.

## Modelling decisions (simplifications)

* Values are integers in [0,2^32) or [0,2^64); the value *type* is not tracked, because
  the emitted modules are type-checked by wasmparser (wasm_validation.rs).
* Memory is a total map from addresses to bytes plus a page count; an access
  beyond the page count traps.
* A block runs on an empty operand stack and leaves its declared number of results.
* Labels are names instead of de Bruijn indices (walrus uses ids as well).
* A callee is referenced by its body rather than by index (no recursion among
  runtime functions exists).
* keccak256 is an arbitrary function from byte lists to 32-byte values; statements that need
  collision freedom say so as a hypothesis on the inputs concerned.
* Gas, ink, `pay_for_memory_grow` and the activation limits of Stylus are not
  modelled.  The growth limit of the memory is a field of the machine state, so every
  theorem holds for every limit.
* Host storage: `storage_load_bytes32`, `storage_cache_bytes32`,
  `storage_flush_cache` act on a cache over a persistent map.

## Trusted base

* Coq 8.16.1's kernel (and its VM, used by `vm_compute` in refutations and examples).
* Print Assumptions output of every claimed theorem is printed by the build; expected
  "Closed under the global context" (any exception is listed below).
* Loading the standard library's tactics also loads `Coq.ssr.ssrunder`, whose sealed module
  `Under_rel` shows up as library axioms (Under_rel, Over_rel, under_rel_done, over_rel, over_rel_done,
  Under_rel_from_rel, Under_relE) in a whole-environment listing.  No theorem depends on them.
* The faithfulness of the transcription (layer 2) to the Rust text, and of `Wasm.v` to the
  WebAssembly specification.
* Not modelled at all: the Move front end, the relooper crate, walrus itself,
  wasmparser, the CLI, the test runner.

## Plan per property

* **C01 Allocations never overlap** — Emitted allocator (memory.rs) in WASM; invariant next_free + available = 65536*pages by induction over the request list.
* **C02 Allocations are safe for every 32-bit size** — Same model; expected refuted by a request >= 2^31 run through the interpreter.
* **C03 Addition of u8..u64 is exact or aborts** — Emitted add functions; case analysis on the wrapped sum against the mathematical sum.
* **C04 Addition of u128/u256 is exact or aborts** — Emitted loop over 64-bit limbs; loop invariant: processed prefix of result + carry*2^k = sum of prefixes.
* **C05 Subtraction of u8..u64 is exact or aborts** — As C03.
* **C06 Subtraction of u128/u256 is exact or aborts** — As C04 with borrow.
* **C07 Multiplication of u8..u64 is exact or aborts** — As C03; the emitted overflow test divides back.
* **C08 Multiplication of u128/u256 is exact or aborts** — Expected refuted (witness by running the emitted code); partial: result congruent mod 2^n, and an error implies a real overflow.
* **C09 Division and remainder of u128/u256** — Emitted long division; invariant over processed bits.
* **C10 Shifts of u128/u256** — Emitted shift loops; word-level invariant.
* **C11 Shifts of u8..u64** — Straight-line code per width.
* **C12 Ordering of u128/u256 is the numeric ordering** — Emitted limb loop; invariant: higher limbs equal.
* **C13 Narrowing casts preserve the value or abort** — Emitted casts; refuted for u64->u8/u16 and u256->u128, proved for the others.
* **C14 Widening casts preserve the value** — Emitted casts.
* **C15 Bitwise and/or/xor of u128/u256** — Emitted limb loop with testbit semantics.
* **C16 Byte-wise equality** — Emitted comparison loop (8/4/2/1-byte steps).
* **C17 Zero test of a memory block** — Same shape as C16.
* **C18 Byte swapping is byte reversal** — Emitted shift/mask code; byte-list reversal as spec.
* **C19 Abort codes are rendered in decimal** — Emitted digit loop against a decimal printer specified independently.
* **C20 Abort revert payload is a Solidity Error(string)** — Emitted error structure builder against an ABI encoder for Error(string); Gallina model of abi_encode_error_message.
* **C21 vector push_back appends** — Emitted vec_push_back; vectors abstracted as byte-block lists.
* **C22 vector pop_back removes the last element or aborts** — Emitted vec_pop_back/decrement.
* **C23 vector swap exchanges two elements or aborts** — Emitted vec_swap; expected refuted for equal out-of-range indices; partial otherwise.
* **C24 vector borrow checks its bounds** — Emitted vec_borrow.
* **C25 vector equality** — Emitted equality; refuted for empty vectors of heap elements, proved for stack elements.
* **C26 vector copy is independent** — Emitted copy.
* **C27 ABI unpack inverts pack for unsigned integers** — Emitted pack followed by emitted unpack.
* **C28 ABI words conform to Solidity** — Emitted pack against big-endian word spec.
* **C29 Out-of-range calldata words are rejected** — Expected refuted by running the emitted unpackers on a dirty word.
* **C30 ABI offsets and lengths are range checked** — Emitted validate_pointer.
* **C31 ABI round trip for strings** — Emitted string pack/unpack.
* **C32 ABI encoding of vectors conforms to Solidity** — Type-indexed generator; induction over the type.
* **C33 Storage slot increment** — Emitted swap/add/swap.
* **C34 Packed storage fields never share bytes** — Layout functions in Gallina and the emitted accumulate code; induction over field lists.
* **C35 Storage round trip for structs** — Type-indexed encoder/decoder; induction over fields.
* **C36 Dynamic array element slot** — Emitted derivation; expected refuted because of endianness of the addition.
* **C37 Shrinking a stored vector clears the removed elements** — Emitted truncation loop; expected refuted.
* **C38 Object slots separate owners and ids** — Emitted slot derivation with abstract keccak.
* **C39 Object lookup order** — Emitted lookup on the host storage model.
* **C40 Transactions commit only on success** — Emitted router with arbitrary function bodies.
* **C41 Dispatch by selector** — Emitted router; induction over the function list.
* **C42 Selector strings distinguish functions** — Gallina model of snake_to_camel; expected refuted.
* **C43 The constructor runs at most once** — Emitted constructor wrapper; induction over call histories.
* **C44 Fresh object ids do not repeat** — Emitted fresh_id; counter history.
* **C45 Frozen objects are immutable** — Emitted transfer/share/freeze guards.
* **C46 Transfers move the object** — Emitted transfer on the storage model.
* **C47 Dynamic field keys are distinguished** — Type-indexed serialiser; expected refuted for structs of vectors; proved for fixed-size keys.
* **C48 Dynamic field key hashing terminates for every key** — Emitted loop; expected refuted for empty vectors.
* **C49 UTF-8 validation** — Emitted validator against an independent UTF-8 grammar; expected refuted, partial afterwards.
* **C50 Character boundary test** — Emitted function; expected refuted for indices >= 2^32.
* **C51 Substring extraction** — Emitted function.
* **C52 Substring search** — Emitted function; nested loop invariants.
* **C53 Generic instantiation removes all type parameters** — Gallina model; induction over types.
* **C54 Function results survive the return convention** — Type-indexed generator; induction over the result list.
* **C55 Call value seen by the contract** — Emitted wrapper with a host that writes big-endian; expected refuted.
* **C56 ABI calldata pointer safety for strings and vectors** — Emitted allocation of decoded vectors; expected refuted for huge lengths.
* **C57 Constant decoding** — Gallina model of decode_uleb128.
* **C58 Compiled runtime errors have distinct blobs** — Gallina model of RuntimeErrorData::get.
* **C59 A copy fails only when memory is exhausted** — Emitted vec copy rounds the allocation differently from the byte count it touches; expected refuted for 1/2-byte elements, proved otherwise.
* **C60 Copies and comparisons of nested values are deep** — Values represented by an inductive relation over memory (SpecVal.v); structural induction over the type.
* **C61 References follow a relocated vector** — Emitted forwarding marker; specification of chains of forwarded headers.
* **C62 Argument decoding agrees with the Solidity ABI** — Type-indexed decoder (unpack_code) against the relation [decodes] of SpecSol.v; induction over the type.
* **C63 Return data is the canonical ABI encoding** — Type-indexed encoder (pack_code) against the function [enc] of SpecSol.v; induction over the type.
* **C64 A signer parameter is the transaction originator** — Emitted function; expected refuted, since it is declared without results.
* **C65 Sender and calldata seen by the contract** — Emitted wrappers for sender and data over the host model.
* **C66 An abort ends the whole call chain** — Program points inside nested control flow (at_point), chains of calls by induction; error propagation at each call.
* **C67 Storage round trip for nested values** — Encoder and decoder specs for all plain types, composed; slots as areas, hash collisions excluded by hypothesis.
* **C68 Loading the wrong object is reported** — The type tag check of the loader over all words.
* **C69 Dynamic fields are found again** — Specs of the five native functions over write_object_slot, save_object and load_object; composed through any later state with the same storage.
* **C70 Dynamic field lookups reflect storage** — Same specs, all words in the slot.
* **C71 Generating an id disturbs nothing else** — Frame part of the same spec: memory, storage and host state before and after an id is made.
* **C72 Deleting clears the object's storage** — The emitted delete function (the loop over fields, nested structs and vector elements) against the slots the storage layout assigns to the object; induction on field types.
* **C73 Shared objects stay shared** — The guards of the emitted transfer, freeze and share functions.
* **C74 Custom errors reach the caller** — The emitted revert function against SpecSol's encoder; whole transactions by composing it with the call chains of C66 and the router.  The full statement is refuted: the translation does not test the abort pointer after revert.
* **C75 A public function is called with what the message says and answers with what it returns** — The emitted wrapper (decode, call, encode) composed from the specs of decoding, encoding, the return convention and the router; the function itself is arbitrary.
* **C76 Events are logged as Solidity defines** — The emitted log function stage by stage (pre-images of the hashed fields, signature, topics, data) against a separate definition of Solidity's log (SpecEvent).  The full statement is refuted for empty vectors, structs in structs and near page ends.
* **C77 Compiled control flow follows the bytecode** — Flow::build, ControlTargets and translate_flow as functions from a shape to WASM code; a separate small-step semantics of block graphs (SpecFlow); a simulation by induction on the flow and, for loops, on the number of jumps left.  The relooper library is not modelled: SpecShape states what its result must satisfy.  The full statement is refuted: an if/else does not look at whether BrTrue or BrFalse ended the block.
* **C78 Changes to objects are kept** — cache_storage_object_changes and the code before Ret, over a list of objects in locals, by induction on the list; combined with program points (at_point) and the return sequence of C54 for whole functions, and with the load of C46 for later transactions.  Objects with objects inside (SpecCacheTree.v, LemCacheTree.v): the same induction over cache_tree of C96, with the former places of objects put into them among the slots that may change, and take_tree of C93 for later transactions.  Refuted for one object passed twice: the copies overwrite each other.
* **C79 Changes to dynamic fields are kept** — commit_changes_to_storage over a list of fields, with the module's globals as parameters, by induction on the list.  The full statement is refuted: each place in the program has one global, so a place that runs twice loses its first field.
* **C80 References reach the part they name** — borrow_field, unpack_variant_ref, vec_borrow and ReadRef/WriteRef for every type.  A part of a value is a path; the reference to it is the address of the word with its pointer.  A focusing lemma (by induction on the path) splits the memory of a value into the part and the rest; reading uses the copy theorem of C60.
* **C81 Structs, enums and locals keep their values** — pack, unpack (structs and enum variants) by induction on the field list, with the memory of the operands split between the fields; box_local, move_local, copy_local for every type.  The words before ids (back pointers) are the only memory in use that packing changes.
* **C82 A function works on what its caller passed** — The code before a call (spilling reference arguments to locals, pushing the arguments), the code at the start of the callee (boxing parameters) and the code after the call (refreshing the references), for every argument list by induction. Expected refuted for a vector assigned as a whole through a parameter, and for a push through a returned reference.
* **C83 Calls to other contracts are the ones the program asks for** — The host model gets other accounts: a reply is an arbitrary function of the calls made so far and of storage.  The emitted function (configuration, call data, the three kinds of call, status, decoding of the reply) for every list of parameter types and every result type, on top of the packing and unpacking theorems of C62/C63.  The reloading of objects after a delegate call is C94.  Expected refuted: a second payable call (the amount is byte-swapped in place) and parameters that are references to numbers.
* **C84 Balances and code sizes are those of the account asked about** — The two host functions around the address and the byte swap; direct.
* **C85 Peeping at an object of another account shows what storage has** — The emitted function on top of the slot and loading theorems (C33, C36, C78); the object is any one that storage has up to date in the sense of C78.
* **C86 Named objects have one id for each tag type** — The emitted function writes the hash of the struct's name; same name iff same id, for hashes that do not collide on the two names.  Expected refuted: equal names in different modules.
* **C87 References to ids lead to the id of the object** — Direct, from the layout of objects in memory.
* **C88 Type names name the type** — The naming function of the compiler on all types; injectivity by induction with a following delimiter.  The emitted function: the bytes are in a new string.
* **C89 Stored objects are accepted as their own type only** — The hash of the compiler as a function on words, with the crate fxhash modelled from its published source (it is not in /repo).  One-letter differences: each step is a bijection of the state and of the word.  Expected refuted: chosen names collide, and the tag of a generic type over a vector of structs has the index of the struct in it.
* **C90 Enums go to their place in storage** — The recursive encoder with enums, against the layout of SpecLayout (after, held, unused); induction on types.
* **C91 Objects with enums come back from storage** — The recursive decoder with enums; a specification of which slot is in memory (fetched) gives the condition.  Expected refuted: a field after an enum whose stored variant ends in an earlier slot.
* **C92 Deleting objects with enums leaves nothing** — The deleting code for enums: a loop from the first to the last slot of the room.  Expected refuted: vectors inside variants, and vectors after a struct that ends with an enum filling its slot.
* **C93 Callers can pass only objects they may use** — The instructions that turn an id in the calldata into an object, over the lookups (C42) and load_object (C71); who may be asked is the list SpecTake.searched. The same function with load_tree (C95) for objects with objects inside.
* **C94 After a delegate call the caller sees what the callee did to its objects** — The end of the function that makes the call: for every id, the lookup (C42), load_object (C71) and a copy of the words of the new object over those of the old one; induction over the objects, whose memory is disjoint.  Expected refuted: a second call, because after the copy the id field leads back to the temporary object.
* **C95 Objects inside an object are saved and loaded with it** — save_tree and load_tree, the code for structs with [key] calling itself for fields that are objects (types are trees of shapes); specification contains (the slots an inner object has), tree_at (how it is in memory); induction over the shape with the invariants of C67 and C71 generalized; vectors and enums with objects inside are left out.
* **C96 Objects put into other objects leave their former owner** — check_tree, the code that goes through the fields before an object is saved, and cache_tree, which calls it and save_tree; specification arrivals (which inner objects come from elsewhere), formers (their slots) and settled (the owners afterwards); induction over the shape, each step erasing the slots of one object (C69). Refuted for objects in structs without [key] by a concrete object for which saving traps.
* **C97 Transfers of objects with objects inside** — transfer_tree, share_tree, freeze_tree: the functions of C46 with check_tree (C96) and save_tree (C95) in place of their forms for flat objects, to which they reduce (transfer_tree_flat and others); the former places are departures, those of C96 and the object's own; composition of the lemmas for deletion, clearing and saving, then that for loading.
* **C98 Parameters and results passed by reference in public functions** — unpack_reference and pack_reference with the arms of their callers that choose them; the functions for whole messages and the entry point are those of C62, C63 and C75 with a mark on each type, to which they reduce without references (build_unpack_params_values, build_pack_params_values); induction over the list of parameters on top of the lemmas for values, then the whole call as in C75.
* **C99 The published ABI names the functions the contract answers to** — AbiGen.v has both programs as functions on types that carry their definitions: the names of the compiler, and the generator's types, its collection of structs (a relation, because it goes through hash sets) and its JSON; SpecAbiGen.v says how a caller reads the JSON.  Equality by induction on the depth of the JSON; that there is an item by induction on the type.  Expected refuted: names that end in an underscore, instances of generic enums, structs of the same name, vectors of structs.
* **C100 The published ABI names the events and errors of the contract** — The same model with the names for errors and events.  Expected refuted: errors with underscores in their names, events with structs inside structs.
* **C101 The published ABI gives the types of arguments and results** — AbiOut.v adds the outputs of the generator and, as a relation, the types with which the compiler encodes and decodes Move types.  SpecAbiOut.v says what Solidity type an entry in JSON is and what a caller sees of a Move value; bytes by the encoding of SpecSol.v, which C75 and C98 are about.  Induction on the depth of the JSON; whole calls by C98.  Expected refuted: objects as results.

## Which code is modelled

Generated from the citations in the model; the comment at each definition says what it simplifies.

* `Tac.v`: data.rs 64-69
* `RtAlloc.v`: memory.rs 23-124
* `RtErr.v`: error.rs 156-203; wasm_builder_extensions.rs 369-407, 409-421, 323-367
* `RtInt.v`: runtime/integers.rs 31-69, 80-113, 125-207, 321-432; runtime/integers/add.rs 208-259, 274-328, 23-193; runtime/integers/sub.rs 203-243, 253-293, 23-193; runtime/integers/mul.rs 324-378, 395-449
* `RtEq.v`: runtime/equality.rs 18-109, 122-235, 245-318
* `RtMul.v`: runtime/integers/mul.rs 61-307
* `RtDiv.v`: runtime/integers/div.rs 251-338, 354-409, 422-496, 43-236
* `RtShift.v`: runtime/integers/bitwise.rs 35-116, 22-272, 283-531
* `SpecInt.v`: heap_integers.rs 73, 465
* `Ops.v`: wasm_builder_extensions.rs 300-321, 162-170; heap_integers.rs 13-66, 277-440, 641-801, 303-345, 666-708, 221-240, 611-630, 158-275, 550-639; translation.rs 2008-2227, 2457-2493, 2544-2605, 2658-2688, 2228-2456, 2689-2794, 1944-2007; intermediate_types.rs 790-806, 935-945; simple_integers.rs 187-237, 413-463, 613-661, 798-847, 128-185, 352-411, 558-611, 754-796
* `RtSwap.v`: runtime/swap.rs 20-73, 85-123, 131-181
* `RtAscii.v`: runtime/integers/ascii.rs 32-186
* `RtAbort.v`: abi_types/error_encoding.rs 168-265, 291-340, 382-403, 355-406; translation.rs 2642-2656, 2606-2657
* `SpecVal.v`: runtime/vector.rs 755-757; intermediate_types/structs.rs 90-103; intermediate_types/enums.rs 85-95; intermediate_types.rs 120-143, 949-969; enums.rs 96-116
* `RtCopy.v`: runtime/vector.rs 765-845, 957-1117, 1120-1130, 855-1153; wasm_builder_extensions.rs 172-178; runtime/copy.rs 5-30; intermediate_types/user_type_fields.rs 28-149; intermediate_types/structs.rs 167-215; intermediate_types/enums.rs 353-389, 222-299; intermediate_types.rs 371-467
* `RtVec.v`: runtime/vector.rs 21-55, 61-122, 137-314, 329-411, 422-561, 573-658, 677-753; wasm_builder_extensions.rs 180-193; intermediate_types/vector.rs 242-312
* `RtVecEq.v`: runtime/vector.rs 1163-1328; intermediate_types/user_type_fields.rs 154-239; intermediate_types/structs.rs 142-165; intermediate_types/enums.rs 124-214; intermediate_types.rs 790-933, 846-925
* `Comp.v`: utils.rs 39-53, 22-57, 72-84; abi_encoding.rs 26-46; intermediate_types.rs 58-116; generics.rs 10-24, 28-77; error.rs 178-203; data.rs 164-210, 103-106, 115-120, 128-154, 71-101; memory.rs 24-45; hostio/entrypoint_router.rs 299-315
* `RtStor.v`: data.rs 22-69; runtime/storage.rs 621-665, 483-519, 521-558, 561-610, 1316-1330, 445-475, 84-94, 232-242, 96-106, 122-132, 155-165, 244-254, 321-331, 398-408, 49-189, 209-279, 299-356, 680-830
* `RtAbi.v`: runtime/packing/uint.rs 21-57, 70-106; runtime/packing/heap_uint.rs 22-68, 82-127, 141-161; runtime/packing/enums.rs 13-77; runtime/unpacking/uint.rs 12-52; runtime/unpacking/heap_uint.rs 9-47, 49-83, 85-120; runtime/unpacking/enums.rs 16-89; runtime/abi.rs 25-66
* `RtPack.v`: abi_types/packing.rs 513-543, 463-511, 224-373, 375-461, 108-210; structs.rs 236-279, 282-327; packing.rs 128-132; runtime/packing/vector.rs 59-63, 25-201; runtime/packing/structs.rs 179-225, 34-254; runtime/packing/string.rs 29-139
* `RtUnpack.v`: string.rs 41-61, 73-98; vector.rs 65-85, 97-122; structs.rs 117-141; runtime/unpacking/string.rs 12-208; runtime/unpacking/vector.rs 29-234; runtime/unpacking/structs.rs 81-246; abi_types/unpacking.rs 119-360, 71-116; runtime.rs 785
* `RtRouter.v`: abi_types/public_function.rs 150-203, 87-144; runtime/storage.rs 1352-1415, 1339-1420; public_function.rs 124-140; entrypoint_router.rs 170-184, 190-191, 81-218, 224-297, 318; hostio/entrypoint_router.rs 23-324; utils.rs 86-114; constructor.rs 77-164; runtime/unpacking/signer.rs 7-30; vm_handled_types/signer.rs 13-23
* `RtStr.v`: translation/functions.rs 238-311; string.rs 16-330, 332-432, 434-611, 613-723
* `RtTx.v`: transaction.rs 21-51, 83-88, 90-95, 97-102, 53-81, 104-144; runtime/vector.rs 1338-1374
* `RtCall.v`: functions.rs 203-207, 214-224, 192-230, 165-186; translation.rs 251-289, 1910-1945, 3267-3290
* `LemPos.v`: storage/storage_layout.rs 191-231, 71-183, 30-58
* `RtEnumPos.v`: intermediate_types/enums.rs 329-343; runtime/enums.rs 43-56, 21-77, 92-248
* `RtStore.v`: wasm_builder_extensions.rs 197-224; runtime/storage.rs 1571-1617, 1437-1464, 1480-1505, 1521-1554, 837-873; storage/common.rs 150-273, 70-138, 287-371, 30-68; storage/encoding.rs 412-698, 777-785, 740-841, 105-142, 302-382, 166-398, 716-973, 68-97; storage/decoding.rs 724-729
* `RtLoad.v`: storage/decoding.rs 681-691, 675-792, 443-637, 157-253, 273-427, 653-902, 39-256; runtime/storage.rs 889-933
* `RtDyn.v`: native_functions/dynamic_field.rs 493-682, 580-606, 461-472, 412-491
* `RtChild.v`: native_functions/dynamic_field.rs 33-95, 111-211, 213-267, 277-323, 334-399
* `RtFresh.v`: object.rs 108-277
* `RtDelete.v`: storage/common.rs 30-68; runtime/storage.rs 945-1030
* `RtTransfer.v`: runtime/storage.rs 1241-1313, 1059-1234; native_functions/transfer.rs 122-139, 258-275, 400-416, 22-173, 258-301, 399-443, 176-307, 310-448
* `RtPublic.v`: wasm_builder_extensions.rs 323-367; abi_types/public_function.rs 150-203
* `RtRevert.v`: abi_types/error_encoding.rs 89-111, 77-86, 52-148; native_functions/abi_error.rs 20-66
* `PropsPublic.v`: native_functions.rs 845-871
* `RtEvent.v`: native_functions/event.rs 1006-1113, 510-776, 781-1001; event.rs 709-719, 561-577, 729-745, 827-843, 974-990
* `RtEmit.v`: native_functions/event.rs 38-505; event.rs 82-225, 227-259, 261-396, 398-495, 38-505
* `RtFlow.v`: translation.rs 152-163, 77-99, 104-109, 129-137, 117-124, 147-166, 2972-3000, 444-445, 487-508, 467-475, 449-511, 313-531, 242-291; translation/flow.rs 69-160, 8-30, 65-161, 163-168
* `RtCache.v`: runtime/storage.rs 1332-1418, 1618-1708, 1363-1412; translation.rs 3372-3423; translation/bytecodes/dynamic_fields.rs 22-81
* `RtRef.v`: translation/intermediate_types.rs 322-790, 505-579, 581-707; intermediate_types/vector.rs 76-131; translation/bytecodes/structs.rs 21-54; translation/bytecodes/enums.rs 184-254
* `RtLocal.v`: translation/bytecodes/structs.rs 55-300, 87-158; translation/bytecodes/enums.rs 19-180; translation/intermediate_types.rs 322-470, 709-788; enums.rs 71-136, 23-141, 146-178; structs.rs 87-160, 59-166, 200-300, 168-196; translation.rs 2795-2813, 1285-1296; intermediate_types.rs 709-788, 322-369, 371-467
* `RtArgs.v`: translation/functions.rs 232-305; translation.rs 3325-3370, 870-895, 1107-1125, 795-895, 3332-3370, 1821-1862, 1730-1777; functions.rs 268-297, 266-297, 299-302, 238-305; runtime.rs 769; intermediate_types.rs 755-786, 361-364, 120-143
* `RtExt.v`: native_functions/contract_calls.rs 45-812; contract_calls.rs 243-286, 96-186, 188-302, 304-344, 346-411, 413-545, 45-812
* `RtAccount.v`: account.rs 15-41, 43-83
* `RtPeep.v`: native_functions/peep.rs 27-158
* `RtUid.v`: native_functions/object.rs 20-106, 279-330; object.rs 20-67, 72-106, 279-330; utils.rs 86-114
* `CompType.v`: intermediate_types.rs 59-116, 1136-1142, 1051-1131
* `RtTypeName.v`: type_name.rs 107-121, 21-127
* `CompTag.v`: intermediate_types.rs 1144-1213, 1154-1213, 1144-1152; hasher.rs 6-8; compilation_context/module_data.rs 121-126
* `SpecTake.v`: abi_types/unpacking.rs 24-38
* `RtTake.v`: runtime/unpacking/structs.rs 248-388; abi_types/unpacking.rs 271-312, 363-388; structs.rs 301-356, 262-388
* `RtReload.v`: native_functions/contract_calls.rs 547-812; contract_calls.rs 674-806, 654-808, 547-812, 45-812
* `ExReload.v`: translation.rs 1018-1066
* `RtWrap.v`: storage/encoding.rs 842-915, 40-151; runtime/storage.rs 837-873
* `RtWrapLoad.v`: storage/decoding.rs 39-256, 653-902; runtime/storage.rs 889-933
* `RtTto.v`: runtime/storage.rs 1032-1313, 1618-1708, 1241-1313, 1059-1234; storage/common.rs 299-327
* `LemTto.v`: runtime/storage.rs 1618-1708
* `RtTreeMove.v`: native_functions/transfer.rs 22-448, 122-139, 258-275, 400-416, 22-173, 258-301, 399-443, 176-307, 310-448
* `RtAbiRef.v`: runtime/unpacking/reference.rs 11-105; abi_types/unpacking.rs 198-240, 355-358, 71-116; runtime/packing/reference.rs 31-151; abi_types/packing.rs 298-317, 387-413, 108-210
* `LemAbiRef.v`: abi_types/public_function.rs 150-203
* `LemCacheTree.v`: translation.rs 3372-3423
* `AbiGen.v`: intermediate_types.rs 58-116; types.rs 184-262, 85-92, 93-124, 21-77, 82-156, 158-345; special_types.rs 1-41; sol_name.rs 40-48, 17-61; abi_encoding.rs 49-109, 112-128, 130-144, 35-42, 26-47; function_encoding.rs 13-25; utils.rs 59-67; error_encoding.rs 25-37; event_encoding.rs 36-89, 91-104, 17-34; common.rs 4-43; abi.rs 54-59, 839-873, 519-613, 145-418, 420-517, 768-837, 675-766; json_format.rs 64-85, 317-460, 284-308, 188-270, 106-141, 143-186
* `AbiOut.v`: abi.rs 875-933, 364-389; json_format.rs 222-234; abi_types/packing.rs 224-462; runtime/packing/structs.rs 34-255; abi_types/unpacking.rs 118-365; runtime/unpacking/structs.rs 81-260; runtime/packing/heap_uint.rs 141-161

Not modelled (no theorem is about this code):

* the walk over Move bytecode that picks which emitted sequence to use (translation.rs
  `translate_instruction`, types_stack.rs), except for the sequences cited above; the relooper library (its result is a parameter of `RtFlow.v`);
* parsing and module loading (compilation_context, lib.rs drivers), the attribute parser crate
  (move-parse-special-attributes), the ABI generator crate (move-evm-abi-generator) apart from AbiGen.v and AbiOut.v, move-cli and
  move-test-runner;
* native_functions/unit_test.rs;
* translation of generics beyond type substitution, the unit-test mode, WASM validation and binary emission (walrus).

How to read seeded/LOG.jsonl: `first_failures` is what the build of the edited copy reported, the first proof in each file that no longer goes through.
`theorems_failed` is not a separate observation: it names the theorems, chosen with the edit, for the claim it breaks, and every one of them is in a file that
imports, directly or through others, a file with a failure, so that it could not be rebuilt.  A proof that breaks is evidence, not proof, that the statement
became false: a harmless edit breaks proof scripts too.  Records with a note say where a first run was repeated, because it had stopped at a
lemma that only compares two pieces of code or at a syntax error.
