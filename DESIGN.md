# Formal model of clr_lite: design

The model is in Rocq/Coq 8.16.1 (`rocq/theories`). It covers the image reader, the metadata
reader, the class loader, the object heap and the interpreter of /repo/clr_lite/src.
The plan was written before the proofs; this version describes what is there now.

## Approach

* Every Rust function is a total Gallina function in one state monad `M S A := S -> res S A`
  (Base.v). A result is `Ok` (a value and a state), `Err` (Rust `Err` or `None`, with the state
  it leaves behind), `Panic`, `Ub` (undefined behaviour of an `unsafe` block) or `NoFuel`.
* Recursive Rust functions whose termination depends on data take a budget `fuel`. `NoFuel` is
  never a result of the program: statements quantify over all budgets, say that a budget
  suffices, or use "for some budget". C54 shows that the budget does not change an outcome.
* Bytes are `Coq.Init.Byte.byte`. Machine integers are `N` or `Z` with explicit ranges.
  Arithmetic takes a build profile: `Debug` panics on overflow, `Release` wraps. Theorems
  quantify over the profile unless they name one.
* Floating-point numbers are bit patterns. Arithmetic and comparison are those of the standard
  library's `SpecFloat` (IEEE 754, round to nearest even); see Value.v. C74 proves that these
  definitions round correctly. That Rust's operators on floats are those of IEEE 754 is assumed.
* A property that is false of the code has `_refuted` theorems, which exhibit or characterise
  the failure, and `_partial` theorems for the inputs on which it holds. The full statement
  stays in properties.jsonl; the note in MANIFEST.json says what is missing.

## Files

| Kind | Files | Contents |
|------|-------|----------|
| Model | Base, BinaryReader, Utf, Pe, Metadata, Blob, Tables, TablesApi, Attributes, Runtime, Loader, Value, Gc, Opcodes, Interp, Host, Texts, Messages, LoadMessages, Borrows, Reserve, Aligned, AlignedImage, AlignedBody | definitions only, each citing the lines of /repo it models |
| Specification | SpecBytes, SpecUtf, SpecPe, SpecMetadata, SpecBlob, SpecTables, SpecAttributes, SpecBody, SpecRuntime, SpecHistory, SpecTypes, SpecLayout, SpecLoader, SpecHeap, SpecStack, SpecFrames, SpecExec, SpecLang, SpecCalls, SpecImage, SpecLoad, SpecBorrow, SpecSafety, SpecIeee, SpecPlaces, SpecProfiles, SpecEnds, SpecSteps, SpecAlign, SpecOffsets, SpecReads, SpecParams, SpecTexts, SpecScopes, SpecWiden, SpecReserve, SpecMixed, SpecImageAlign, SpecWholeAlign, SpecAges, SpecMnemonics, SpecStores, SpecAgain, SpecMessages, SpecLoadMessages, SpecRemains, SpecDisk | written from ECMA-335 or from the English property |
| Lemmas | *Facts, *Proofs, *Inv, *Run, *Runs, *Ops, SafetyCheck, TablesTotal, ParseSpec, TraceProps | invariants and inductions |
| Theorems | Props* | the theorems named in MANIFEST.json, an `Example` beside each that meets the hypotheses, `Print Assumptions` for each |
| Examples | DemoImages, DemoStates, DemoRuns, DemoFacts, ZooImages, ZooStates, KnotImages, SpinImages, ParamImages, ScopeImages | whole images as byte literals (made by tools/demo_images.py), loaded by the kernel |

The specifications of formats (SpecBytes, SpecPe, SpecBlob, SpecTables, SpecBody, SpecLang) are
encoders or relations on bytes that do not call the readers. Specifications of the runtime speak
about its state and therefore import the records of the model, but not its functions beyond the
public ones (load, look up, resolve, run).

## Trusted base

* Coq's kernel (8.16.1), including its `vm_compute` reduction machine. `native_compute` is
  not used.
* `Print Assumptions` reports "Closed under the global context" for every theorem in
  MANIFEST.json: no axioms at all. (Checking all compiled files with coqchk also
  lists the seven `Coq.ssr.ssrunder` fields, abstract in a sealed module of the standard
  library that is loaded with the tactics; no theorem uses them.)
* The reading of the Rust sources: that the definitions of the model files say what the cited
  lines do. tools/opcodes.py generated the opcode list in Opcodes.v and tools/demo_images.py the
  example images; the theorems do not depend on these tools being right, as their output is
  part of the model (opcodes) or checked by the kernel (images).
* The specifications. They are small and separate so they can be read against ECMA-335.

## What is modelled

Paths are relative to /repo/clr_lite/src.

| Rust source | Model | Extent |
|-------------|-------|--------|
| ../../binary_reader/src/lib.rs | BinaryReader, Utf | all functions, with the UTF-8 validator of std |
| pe.rs | Pe | all |
| metadata/mod.rs, metadata/metadata_token.rs | Metadata, Tables | root, stream headers, stream slices, CLI header, resources, field data, entry point |
| metadata/strings_heap.rs, blob_heap.rs, guid_heap.rs | Metadata, Blob, Utf | all |
| metadata/blob/*.rs | Blob | all decoders |
| metadata/tables/*.rs | Tables, TablesApi, Attributes | all 38 row decoders, index widths, coded indexes, handles, attribute words |
| vm/mod.rs, vm/reflection/*.rs | Runtime, Loader | type registry, arrays, sizes, subtyping, token resolution, loading of types, fields, methods, bodies, references and files |
| vm/interpreter/value.rs | Value | all operators on all kinds of value |
| vm/gc/*.rs | Gc | allocation, headers, fields, arrays, strings, growth of the buffer |
| vm/interpreter/opcodes.rs | Opcodes | all opcodes, decoding |
| vm: all `borrow()` and `borrow_mut()` | Borrows | which guards each function holds during which calls |
| all `Display` implementations but that of `ArrayError` | Texts | all |
| ../../binary_reader/src/lib.rs, pe.rs, metadata/tables, metadata/blob/blob_reader.rs | Aligned | the readers once more, with the address of the data; reads of `bool` and `char` |
| metadata/mod.rs, vm/reflection/method_body.rs | AlignedImage, AlignedBody | the readers of metadata and method bodies once more, with the address of the image |
| metadata: `Vec::with_capacity` | Reserve | the number of elements asked for by the decoders of tables and signatures |
| vm/reflection/assembly.rs:13-90, vm/mod.rs:60-67 | LoadMessages | the texts of the errors for assemblies, methods and types that are not there |
| ../../test_program/src/main.rs | Host | `main`, without the text that `dbg!` writes |
| vm/interpreter/mod.rs, stack_frame.rs, vm/internal_method.rs, vm/internal_method/*.rs | Interp, Messages | every instruction the interpreter supports, frames, calls, the console methods, `execute_method` |

## What is not modelled

* The variable part of the texts of panics, and of errors of loads other than those about what an image refers to; only the fixed part is kept. The texts about what an image refers to are in LoadMessages (C94). The texts of errors of executions are in Messages (C93), apart from how floats and addresses are printed.
* tests.rs and the `#[cfg(test)]` modules.
* The real file system: it is a function from directory and name to missing, unreadable or contents, and
  does not change during a load. Path separators inside assembly names are not interpreted.
* Memory exhaustion, the depth of the native stack (an endless recursion is modelled as running out of any depth, C77), and the
  size in memory of what `Vec::with_capacity` asks for (the number of elements is in Reserve; not that of method_body.rs, vm/reflection or the interpreter).
* Alignment, except in Aligned, AlignedImage and AlignedBody (reads of the headers, metadata, compressed numbers, user strings and method bodies of an image, C87) and C79 (the heap and operands); elsewhere a misaligned access is not an outcome of the model. Aliasing rules (Stacked Borrows). `RefCell` borrows are modelled
  apart from the rest, in Borrows (control flow left open). Dangling pointers are modelled, by counting the buffers of each vector.
* The layout of `Value` is that of the current compiler (16 bytes, tag 0 first). `usize` has 64 bits and the
  machine is little-endian.
* The sign and payload of a computed NaN, which Rust leaves open (the model has the quiet NaN).
* `print!`: the console is the text appended to the runtime's output buffer.
* Threads: the code has none.

## Defects found

Each is a theorem (named in the section on the property).

* Peeking an array that ends at the end of the buffer fails (C02). An overflowing array size
  reads out of bounds in release builds (C02).
* RVA resolution wraps at 32 bits (C06). Hostile images panic the metadata reader (C07).
* Tokens lose rows from 2^24 (C09).
* The entry point is the method one row too early, and an entry point in row 1 makes the load
  fail or panic (C10).
* Function pointers, modifiers, lower bounds and vararg call sites in signatures are decoded wrongly (C17,
  C19, C20); a modifier panics the field decoder (C18).
* Coded index widths are wrong at exactly 2^(16-k) rows, and custom attributes of DeclSecurity
  are rejected (C23-C26). InterfaceImpl positions are off by one (C27).
* Parameters are named by the position of their rows, not by their numbers; a parameter without a row takes the name of
  another method's or makes the load panic (C80). The texts of overloads can be the same (C81).
* Locals of pointer, by-reference, generic or multi-dimensional type panic the loader (C29). Only
  the first exception section is read (C30).
* Type identifiers wrap (C31). Array types are shared by element types of equal names (C33).
* Member references with other than TypeRef parents are skipped and shift all later tokens;
  overloads are not told apart (C35).
* Reference fields overlap, and static fields push instance fields outside the object (C36).
* `instance_of` ignores the interfaces of a type that has a base (C37).
* A failed load leaves types behind (C38). Loading by name loads twice (C60). The file found for a
  reference is loaded whatever assembly it holds, and the reference then counts as not loaded (C95).
* `newarr` with a negative length wraps in release builds (C39). Heap growth leaves every
  reference dangling (C40). `stfld` writes with the width of the value, not of the field (C41), and can turn the object behind it into something else (C89).
  Arrays of objects are accessed outside the heap (C42).
* Bytes that are no instruction, the end of the code and the CIL prefix `no.` end the process; 0xf8 alone is taken for an instruction (C90).
* Unsigned instructions are signed (C46). `ldarg`, `starg`, `ldarga` read a 4-byte operand (C48).
* A callee can leave operands behind for, or take them from, its caller (C50).
* Growing frame storage leaves the frames of all callers dangling (C53). Fresh locals are 8-bit
  zeros whatever their type (C56).
* Undefined opcode bytes panic (C59). Returned objects are read after being freed (C62).
* Code is not verified: what undefined behaviour it can have is listed in SpecSafety (C73).
* Assemblies that refer to one another, a type that extends itself and a struct that contains itself make the
  loader or `size` recurse forever (C77).
* Strings, arrays and fields on the heap, and operands of instructions, are accessed at misaligned addresses (C79).
  So are rows of tables, literals of 64 or more characters, and the exception clauses that compilers write, wherever the
  image is (C87).
* Reading a truth value or a character from bytes that are not one is undefined (C88).
* A type reference ignores the assembly it names (C82). Numbers of fewer than 32 bits keep their size on the operand
  stack (C83); numbers of different types compare unequal or panic, and a 64-bit number cannot be shifted by a 32-bit
  count (C86). Literals are not interned and a reference as a condition panics (C85).
* Decoders believe counts before reading the elements, and ask for as much room (C84).
* Asking for an array type, loading or running while a view of the types or assemblies is held panics (C72).
* An unsupported instruction of two bytes is reported at the offset of its second byte; ldelem.i4 on something that is
  no array is reported as Stelem (C93).

## Testing the theorems

seeded/LOG.jsonl records edits of the model that imitate realistic bugs, made in a scratch copy,
with the theorems and lemmas that no longer compile. Entries with `theorems_tightened` led to a stronger theorem.
Entries marked in their note as equivalent change nothing observable. Three entries say in their note that the edit
did not typecheck; they count for nothing.

## Properties

For each property: its status, how it is modelled and proved, and what is missing.
The full statements are in properties.jsonl.

### C01: Fixed-size reads are exact and bounded

Status: proved. Theorems in PropsReader.v: `C01_read_exact`, `C01_read_little_endian`, `C01_read_memory_safe`.

Method: Case analysis on the bound check; the specification is a list of bytes (SpecBytes).

Result: Reads and peeks return exactly the stored bytes, move the cursor by exactly their size or not at all, and never leave the buffer.

### C02: Array reads never leave the buffer and agree with element reads

Status: partial. Theorems in PropsReader.v, PropsReads.v: `C02_read_array_exact_partial`, `C02_peek_array_exact_partial`, `C02_peek_array_exact_fit_refuted`, `C02_read_array_overflow_refuted`, `C02_overflow_partial`, `C02_element_reads`.

Method: As C01 for arrays, with element reads iterated by induction on the count.

What is missing: The full claim is false: an array ending exactly at the end of the buffer cannot be peeked, and an overflowing byte count reads out of bounds in a release build (both refuted with witnesses). Proved for byte counts that fit usize and, for peeking, arrays that do not end at the end; C02_overflow_partial says what each build does for all other byte counts, and C02_element_reads that an array holds what reading its elements one by one gives.

### C03: C-string reads stop at the first NUL

Status: proved. Theorems in PropsReader.v: `C03_c_string`, `C03_c_string_unterminated`, `C03_fixed_string`, `C03_c_string_past_end`, `C03_utf8_validator`.

Method: Induction on the buffer up to the first NUL; the UTF-8 validator is compared with an independent encoder (SpecUtf).

Result: For a cursor inside the buffer; past the end the code panics (C03_c_string_past_end).

### C04: PE parsing accepts exactly the well-formed headers

Status: proved. Theorems in PropsPe.v: `C04_parse_pe_exact`.

Method: SpecPe states the layout as values at file offsets; equivalence with success, both directions.

Result: Success iff the independent layout predicate holds, with exactly the stored field values.

### C05: PE parsing is total on hostile input

Status: proved. Theorems in PropsPe.v: `C05_parse_pe_total`.

Method: A safety predicate (no panic, no undefined behaviour) closed under bind.

Result: Every byte string gives a value or an error.

### C06: RVA resolution is sound and complete

Status: partial. Theorems in PropsPe.v, PropsPlaces.v: `C06_resolve_rva_partial`, `C06_resolve_rva_overflow_refuted`, `C06_every_table`, `C06_agreement`.

Method: Induction on the section list against a specification by containment. PropsPlaces describes all section tables, with the places, the errors and the overflows of both profiles (SpecPlaces).

What is missing: False when virtual address + raw size exceeds 32 bits (refuted). Proved for every other section table; C06_every_table says exactly what happens for every table, in both build profiles.

### C07: Metadata loading is total on hostile input

Status: partial. Theorems in PropsMetadata.v, PropsPlaces.v: `C07_root_total`, `C07_metadata_total_partial`, `C07_metadata_total_refuted`, `C07_panics_exactly`.

Method: The safety predicate of C05 through root, headers and streams, with the side conditions where it fails. PropsPlaces has the exact set of byte strings that make the reader panic.

What is missing: The full claim is false (four hostile images in C07_metadata_total_refuted). C07_panics_exactly: exactly which byte strings make the read panic, in both profiles; every other one is read or refused. C07_metadata_total_partial is the sufficient condition in terms of the format; the root parser never panics.

### C08: Every metadata stream is located exactly

Status: proved. Theorems in PropsMetadata.v, PropsPlaces.v: `C08_streams_located`, `C08_image_round_trip`, `C08_root_sound`, `C08_read_exactly`.

Method: SpecMetadata encodes a root with any list of headers; induction on that list. C08_image_round_trip composes it with C04 and C26. PropsPlaces has the converse (an image is read exactly as its headers say, also with repeated streams).

Result: Located by position for any version length, header order and optional #US; the tables clause goes through the reader of C26, and C08_image_round_trip combines the two.

### C09: Metadata tokens round-trip

Status: partial. Theorems in PropsBlob.v: `C09_token_round_trip_partial`, `C09_large_row_refuted`.

Method: Bit arithmetic on the token word.

What is missing: Round trip for every row number below 2^24, the width of the token's index; for every larger one it is refuted.

### C10: The entry point is the method named by the CLI header

Status: partial. Theorems in PropsLoader.v: `C10_no_entry_point`, `C10_entry_point_partial`, `C10_first_method_refuted`, `C10_entry_point_refuted`.

Method: SpecHistory describes arbitrary uses of a runtime; the loaded assembly is characterised by LoaderRun, the entry point by its row.

What is missing: False as stated: the entry point is the method of the row before the one in the header (C10_entry_point_partial, C10_entry_point_refuted), and images whose entry point is row 1 never load (C10_first_method_refuted). A header without entry point gives none.

### C11: String-heap lookups are correct

Status: proved. Theorems in PropsBlob.v: `C11_text_found`, `C11_outside_is_none`, `C11_unterminated_is_none`, `C11_not_utf8_is_none`, `C11_lookup_total`.

Method: Relation between index and text over the heap's bytes, any history of earlier lookups.

Result: For every heap, every history of earlier lookups and every index.

### C12: The string cache is transparent

Status: proved. Theorems in PropsBlob.v: `C12_cache_transparent`.

Method: Invariant of the cache, induction over histories.

Result: Cache invariant over all finite histories.

### C13: Blob readers are confined to their blob

Status: proved. Theorems in PropsBlob.v: `C13_reader_is_the_blob`, `C13_only_the_blob`, `C13_non_interference`, `C13_truncated_blob_panics`.

Method: Equality of readers built from heaps that agree on the blob.

Result: Exact bytes of the blob, inversion, non-interference for every decoder. A prefix running past the heap panics (C13_truncated_blob_panics).

### C14: Compressed unsigned integers round-trip

Status: proved. Theorems in PropsBlob.v: `C14_compressed_round_trip`, `C14_encoding_length`.

Method: Cases on the three encodings; arithmetic on bytes.

Result: All n below 2^29 at any position.

### C15: Compressed-integer decoding never panics

Status: proved. Theorems in PropsBlob.v: `C15_compressed_total`.

Method: Cases on the lead byte and on the remaining length.

Result: Any buffer and position; the consumed bytes are an encoding of the value; both build profiles.

### C16: User strings round-trip

Status: proved. Theorems in PropsBlob.v: `C16_user_string`, `C16_user_string_in_heap`.

Method: Induction on the code units, then through the heap by C14.

Result: All code unit sequences, with or without flag byte, also through the heap. Alignment of the u16 slice is not modelled.

### C17: Element types round-trip

Status: partial. Theorems in PropsBlob.v: `C17_element_type_partial`, `C17_element_type_exact`, `C17_function_pointer_refuted`, `C17_type_reference`, `C17_bad_reference_tag`.

Method: SpecBlob encodes element types; nested induction on types with a budget, an exact characterisation by the faithful types.

What is missing: Holds exactly (iff) for types without function pointers, custom modifiers and non-zero lower bounds; the others are refuted.

### C18: Signature decoding terminates and never panics

Status: partial. Theorems in PropsBlob.v: `C18_signatures_total_partial`, `C18_field_signature_partial`, `C18_field_signature_refuted`.

Method: Every recursive call consumes a byte, so a budget above the blob's length suffices; safety by induction on the budget.

What is missing: Total for every decoder except field signatures, where a custom modifier panics (refuted); the characterisation is exact.

### C19: Array shapes round-trip with signed lower bounds

Status: partial. Theorems in PropsBlob.v: `C19_array_shape_partial`, `C19_array_shape_exact`, `C19_lower_bound_refuted`.

Method: Encoder in SpecBlob; induction on sizes and bounds.

What is missing: Rank and sizes always right; lower bounds right iff all are zero (refuted otherwise: rotated words are not decoded).

### C20: Method, field, property and method-spec signatures round-trip

Status: partial. Theorems in PropsBlob.v: `C20_method_signature_partial`, `C20_vararg_call_site_refuted`, `C20_field_signature_partial`, `C20_property_signature_partial`, `C20_method_spec_partial`, `C20_type_spec_partial`.

Method: Uses C17 for return and parameter types; induction on parameters.

What is missing: Round trips for signatures built from faithful types; call sites with variable arguments are refuted for every such signature.

### C21: Marshalling descriptors round-trip

Status: proved. Theorems in PropsBlob.v: `C21_marshalling`, `C21_unknown_native_type`.

Method: Cases on native types and optional parts.

Result: All native types and optional components; unknown native types are errors.

### C22: Simple table indexes have the right width

Status: proved. Theorems in PropsTables.v: `C22_index_width`.

Method: Cases on the table and the comparison with 2^16.

Result: Two bytes iff fewer than 2^16 rows, for the nine tables that are indexed by a plain column.

### C23: Coded indexes have the right width

Status: partial. Theorems in PropsTables.v: `C23_coded_width_partial`, `C23_coded_width_refuted`.

Method: Width as in II.24.2.6, compared for all kinds; the exact set of row counts on which they agree.

What is missing: False when a target table has exactly 2^(16-bits) rows (refuted for every kind), because the code compares with > instead of >=, and when DeclSecurity is the table that makes HasCustomAttribute wide. Proved: the width is right exactly for the remaining (settled) row counts.

### C24: Coded indexes round-trip

Status: partial. Theorems in PropsTables.v: `C24_coded_round_trip_partial`, `C24_unassigned_tag`, `C24_coded_round_trip_refuted`.

Method: Tag and row arithmetic for all thirteen kinds.

What is missing: False for tag 8 (DeclSecurity) of HasCustomAttribute, which is rejected (refuted). Proved for all other kinds, tags and rows, narrow and wide; unassigned tags are errors.

### C25: Every table row is decoded as ECMA-335 lays it out

Status: partial. Theorems in PropsTables.v: `C25_row_partial`.

Method: The ECMA schema of each table is data in SpecTables; one lemma per table by a common tactic.

What is missing: All 38 tables, all columns, exact consumption. Missing only the two cases in which the full claim is false: unsettled row counts (C23) and custom attributes on DeclSecurity rows (C24).

### C26: The table stream round-trips

Status: partial. Theorems in PropsTables.v: `C26_stream_round_trip_partial`, `C26_stream_round_trip_refuted`, `C26_stream_total`.

Method: Induction over rows and over the table list; totality by the safety predicate.

What is missing: Whole stream, any subset of tables. Missing only the two cases of C25, where it is false (refuted with 2048 ModuleRef rows). In addition no byte string makes the table reader panic.

### C27: Table handles index the right row

Status: partial. Theorems in PropsTables.v: `C27_handle_index`, `C27_position_round_trip_partial`, `C27_position_round_trip_refuted`.

Method: Arithmetic for each table's handle type.

What is missing: False for InterfaceImpl, whose conversion from a position omits the +1 (refuted). Proved for the other 37 tables.

### C28: Attribute words are decoded faithfully

Status: proved. Theorems in PropsAttributes.v: `C28_type_attributes`, `C28_field_attributes`, `C28_method_impl_attributes`, `C28_method_attributes`, `C28_pinvoke_attributes`, `C28_generic_param_attributes`, `C28_param_attributes`, `C28_event_attributes`, `C28_property_attributes`, `C28_assembly_flags`, `C28_hash_algorithm`, `C28_method_semantics`, `C28_constant_type`.

Method: Bit-level specification (SpecAttributes); decision over fields of the word.

Result: Each decoder accepts exactly the words that ECMA-335 gives a meaning and returns that meaning.

### C29: Method bodies are decoded exactly

Status: partial. Theorems in PropsBody.v: `C29_tiny_body`, `C29_fat_body_partial`, `C29_unsupported_local_refuted`.

Method: SpecBody encodes bodies; round trip through section, header and locals.

What is missing: Tiny bodies: proved in full. Fat bodies: proved when every local is a built-in type, class, struct or vector of these. For a pointer, by-reference, generic or multi-dimensional local the loader panics (C29_unsupported_local_refuted).

### C30: Exception clauses are decoded exactly

Status: partial. Theorems in PropsBody.v: `C30_clauses_partial`, `C30_later_sections_refuted`.

Method: Encoder for clause sections; induction over clauses.

What is missing: Proved for one section of clauses, small or fat. The property fails when the clauses are spread over several sections, which II.25.4.5 allows: only the first section is read (C30_later_sections_refuted).

### C31: Type identifiers identify types

Status: partial. Theorems in PropsRegistry.v: `C31_identifiers_partial`, `C31_identifiers_debug`, `C31_identifiers_refuted`, `C31_registered_types_stay`, `C31_no_dangling_types`.

Method: Invariant over the histories of SpecHistory (loads, failed loads, array types, executions).

What is missing: Proved for every history of a debug build, and of a release build with at most 2^32 types; refuted for release builds beyond that, where identifiers start again at zero. Also: registered types never change or move, and nothing refers to an unregistered type.

### C32: Type lookup by name returns the registered type

Status: proved. Theorems in PropsRegistry.v: `C32_lookup_latest`.

Method: Refinement: the registry is the list of registrations, searched from the latest.

Result: For every history of loads (successful or failed) and array-type creations.

### C33: Array types are unique

Status: partial. Theorems in PropsRegistry.v: `C33_array_type_unique_partial`, `C33_array_type_stays`, `C33_array_types_distinct`, `C33_element_type_refuted`.

Method: The registry refinement of C32 applied to array names.

What is missing: Asking again returns the same type and registers nothing, also later unless an assembly defines a type with the array's own name; arrays of differently named elements are distinct. Refuted for the element type: two types of the same name share one array type.

### C34: Field tokens resolve to their rows

Status: proved. Theorems in PropsLoader.v: `C34_field_tokens`, `C34_method_tokens`, `C34_no_such_row`.

Method: LoaderRun computes the state after a load (`load_data_run`); tokens index the concatenation of the members of all types; preserved over later histories.

Result: Field and method tokens resolve to the member the row describes, owned by the type whose list has the row, after the load and for ever.

### C35: Member references resolve to the referenced method

Status: partial. Theorems in PropsLoader.v: `C35_member_ref_tokens_partial`, `C35_type_ref_parents_partial`, `C35_other_parents_refuted`, `C35_overloads_refuted`.

Method: As C34 for the member reference table.

What is missing: False for mixed parents (rows with other parents are skipped and shift the tokens) and for overloads (only the name is compared). Proved where all parents are type references: right name and right declaring type. C35_member_ref_tokens_partial says what happens for any mix.

### C36: Instance fields do not overlap and lie inside the object

Status: partial. Theorems in PropsOffsets.v, PropsTypes.v: `C36_offsets`, `C36_apart`, `C36_fields_apart_partial`, `C36_fields_apart_refuted`, `C36_fields_inside_refuted`.

Method: Invariant on offsets along the base chain (LayoutFacts, FieldFacts) against SpecLayout. PropsOffsets proves the exact offset of every field of every loaded type, against the registry as it was when the field was placed (SpecOffsets), by following the loader type by type, and from it exactly when two fields of a type lie apart.

What is missing: Proved for class hierarchies whose instance fields are of value types registered before the class; refuted for reference fields (both at one offset) and for instance fields behind static fields (outside the object). Where every field of every loaded type is, and exactly when two fields of a type lie apart, is proved without restrictions (C36_offsets, C36_apart).

### C37: instance_of is the subtype relation

Status: partial. Theorems in PropsTypes.v: `C37_instance_of_partial`, `C37_instance_of_sound`, `C37_instance_of_bases`, `C37_instance_of_answers`, `C37_instance_of_refuted`.

Method: SpecTypes defines subtyping inductively; induction on the chain of bases.

What is missing: The answer is exact for bases and for the interfaces of a type without base, always sound, and given for every finite chain of bases; refuted for the interfaces of a class that has a base. Types are compared by full name.

### C38: Failed assembly loads leave the runtime unchanged

Status: partial. Theorems in PropsLoader.v, PropsRemains.v: `C38_unreadable`, `C38_unknown_type`, `C38_failed_load_partial`, `C38_failed_load_refuted`, `C38_remains`, `C38_lacking`.

Method: `pres` triples for every loader function: what was there stays, whatever the outcome. SpecRemains says that the runtime goes from one state to another by successful loads by name only (successes); PropsRemains shows by induction over the chain of references that this is all that a failed load leaves, unless everything is there that some image refers to and its contents cannot be loaded (C38_remains), and always when something that is referred to is not there (C38_lacking).

What is missing: False in general: a load that fails late leaves types behind (C38_failed_load_refuted). Proved: nothing that was there changes, no assembly is added when the references were loaded, and unreadable images or missing types change nothing. Whatever the reason, what a failed load leaves is whole assemblies loaded for references (C38_remains, C38_lacking), except if the contents of an image that lacks nothing cannot be loaded.

### C39: Allocations are fresh and disjoint

Status: partial. Theorems in PropsHeap.v: `C39_fresh`, `C39_disjoint`, `C39_negative_refuted`.

Method: SpecHeap describes blocks; invariant over allocation histories.

What is missing: C39_fresh/C39_disjoint: every successful allocation of an object, array or string appends one zeroed block with the right header behind everything on the heap; for arbitrary histories of allocations the blocks are disjoint and nothing earlier changes. In release builds this needs sizes below 2^64: C39_negative_refuted shows new int[-1] wrapping.

### C40: References stay valid

Status: partial. Theorems in PropsHeap.v: `C40_partial`, `C40_refuted`.

Method: Generations of the buffer; invariant that all references are of the current one while the capacity suffices.

What is missing: C40_partial: as long as the heap stays within its capacity all references stay valid and all contents are kept. C40_refuted: once an allocation makes the heap move, every earlier reference is dangling and each use of it is undefined behaviour.

### C41: Field writes are read back and touch nothing else

Status: partial. Theorems in PropsHeap.v, PropsWiden.v: `C41_new`, `C41_load`, `C41_store`, `C41_other`, `C41_narrow_refuted`, `C41_other_types_refuted`, `C41_reference_refuted`.

Method: Splice lemmas on the heap's bytes; C36 for disjoint fields.

What is missing: For fields of all ten number types: zero at first, load after store, nothing else written. C41_narrow_refuted: storing a value of another width (an int into a short field, which is what the instruction gets for short fields) overwrites the next field. C41_other_types_refuted: fields of any other type (references, bool, char) cannot be loaded (panic); C41_reference_refuted: references cannot be stored in fields.

### C42: Array accesses are bounds-checked and exact

Status: partial. Theorems in PropsHeap.v: `C42_new`, `C42_load`, `C42_load_outside`, `C42_store`, `C42_store_outside`, `C42_exact`, `C42_set`, `C42_get`, `C42_newarr`, `C42_newarr_negative`, `C42_other_type`, `C42_reference_refuted`.

Method: Splice lemmas with element positions; both the instructions and the host's interface.

What is missing: Arrays of all number types: new arrays are zero, stores and loads are exact and bounds checked, by instruction (System.Int32) and by the host interface (all types); wrong element types are refused. C42_reference_refuted: arrays of System.Object are used outside the heap. Negative lengths: C42_newarr_negative (debug), C39_negative_refuted (release).

### C43: String objects keep their contents

Status: proved. Theorems in PropsHeap.v: `C43_new`, `C43_read`, `C43_kept`, `C43_apart`, `C43_literal`.

Method: As C42 for code units.

Result: New strings have the given text; reading returns it; later allocations within the capacity and writes elsewhere keep it; the instruction that loads a literal gives the text of the literal.

### C44: Integer arithmetic follows CIL

Status: proved. Theorems in PropsValue.v: `C44_add_sub_mul`, `C44_neg`, `C44_and_or_xor`, `C44_not`, `C44_shl`, `C44_shr`, `C44_shl_release`, `C44_shr_release`.

Method: Integers modulo 2^n at all widths; panics exactly on overflow in debug builds.

Result: Every operator the interpreter implements (add, sub, mul, neg, and, or, xor, not, shl, shr) at every supported operand type, in both build profiles: release wraps, debug panics on overflow.

### C45: Division and remainder truncate

Status: proved. Theorems in PropsValue.v: `C45_div_rem`.

Method: `Z.quot`/`Z.rem` and the overflow case.

Result: Quotient and remainder by truncation; division by zero and MIN / -1 panic in both profiles.

### C46: Unsigned instructions treat operands as unsigned

Status: partial. Theorems in PropsUnsigned.v, PropsValue.v: `C46_division_exactly`, `C46_remainder_exactly`, `C46_comparison_exactly`, `C46_unsigned_comparison_refuted`, `C46_unsigned_division_refuted`, `C46_unsigned_partial`.

Method: Witnesses for each instruction; the theorem for non-negative operands; and for all operands of the three integer widths exactly when the answer is the unsigned one (PropsUnsigned.v).

What is missing: Refuted as stated: cgt.un, clt.un, div.un, rem.un compare/divide signed. C46_unsigned_partial covers operands that are both non-negative; the C46_*_exactly theorems say for all operands of each width when the answer of the instruction is nevertheless the unsigned one. Unsigned branches are not implemented (C59).

### C47: Comparison and branch agree

Status: proved. Theorems in PropsCompare.v: `C47_compare`, `C47_branch`, `C47_branch_on_zero`.

Method: One relation of order on values (numbers and floats) against all comparing and branching instructions.

Result: Comparisons and compare-and-branch agree with the order of the numbers, NaN included; brtrue/brfalse on every value kind.

### C48: Instruction operands are decoded as CIL encodes them

Status: partial. Theorems in PropsDecode.v: `C48_size_partial`, `C48_constants`, `C48_load_variable`, `C48_store_variable`, `C48_long_argument_refuted`, `C48_long_argument_end_refuted`.

Method: Instruction formats of III as data; one lemma per instruction by computation on the decoder.

What is missing: Refuted for the long forms ldarg, starg, ldarga: a 4-byte index is read where the format has 2. All other supported instructions have the size of their format.

### C49: Branch targets are relative to the next instruction

Status: proved. Theorems in PropsCompare.v: `C49_jump`, `C49_conditional`, `C49_before_the_code`.

Method: Arithmetic on the position after the operand.

Result: Targets are relative to the next instruction, forwards and backwards; a target before the code panics in debug and leaves the code in release.

### C50: Arguments are passed in order

Status: partial. Theorems in PropsStack.v: `C50_arguments`, `C50_constructor_arguments`, `C50_result_refuted`, `C50_left_behind_refuted`, `C50_call_partial`, `C50_newobj_partial`.

Method: Induction on the number of parameters; results by the stack discipline of C63.

What is missing: Argument order and removal are proved for every method and arity (call and newobj). The result part is false for code that breaks the stack discipline (refuted: a callee can leave operands behind or take its caller's). Proved for methods with consistent stacks (the discipline ECMA-335 requires), for every execution.

### C51: Frames release exactly what they allocated

Status: proved. Theorems in PropsFrames.v: `C51_frames_release`, `C51_nothing_left`.

Method: Invariant over the trace relation (SpecExec) at all depths.

Result: For every execution of every method, at any depth, ending with a value or an error. A panic or undefined behaviour ends the process and has no frames left to speak of.

### C52: A callee cannot change its caller's variables

Status: proved. Theorems in PropsFrames.v: `C52_callee_cannot_change`, `C52_variables_kept`.

Method: Invariant on the cells below a frame, over traces.

Result: Every cell of frame storage below a call's own is the same after it, and a frame's own variables read the same after any call it makes, as long as the storage has not been moved (that defect is C53).

### C53: Frame storage stays valid during a frame's life

Status: partial. Theorems in PropsFrames.v: `C53_frames_valid_refuted`, `C53_recursion_refuted`, `C53_frames_valid_partial`.

Method: Witness executions, and an invariant on generations below the capacity.

What is missing: False: when the storage grows, the pointers of all frames already running dangle (refuted, also by plain recursion to depth 66). Proved for executions that never need more than the initial room.

### C54: Execution is deterministic and resource-independent

Status: proved. Theorems in PropsFrames.v: `C54_budget`, `C54_one_outcome`, `C54_one_trace`, `C54_loop_is_trace`.

Method: Monotonicity in the budget, and equivalence of the loop with the inductive trace relation.

Result: The outcome is unique, more budget never changes it, and the loop finds exactly the executions described by the trace relation.

### C55: Console output is append-only

Status: proved. Theorems in PropsFrames.v: `C55_output_appended`, `C55_output_meanwhile`, `C55_append_only`.

Method: Induction over traces.

Result: The output after any execution is the output before followed by the texts written by the trace, in order; during it, the output at every moment is a prefix.

### C56: Locals start as zero of their type

Status: partial. Theorems in PropsFrames.v: `C56_zero_refuted`, `C56_use_refuted`, `C56_zero_partial`, `C56_value_partial`.

Method: Symbolic execution of a fresh frame.

What is missing: False: a fresh local reads as the 8-bit integer 0 whatever its declared type, and adding it to an int panics (both refuted). Proved: it reads as a number whose value is 0 until assigned.

### C57: Compiled expressions evaluate correctly

Status: proved. Theorems in PropsLang.v: `C57_expression`.

Method: A compiler from expressions to bytes (SpecLang); simulation by induction on expressions.

Result: For every expression on 32-bit integers built from constants, arguments, locals and the arithmetic, bitwise, shift and comparison instructions, in any encoding. Unassigned locals and shift distances outside 0..31 are left unspecified.

### C58: Only static methods start an execution

Status: proved. Theorems in PropsFrames.v: `C58_only_static`, `C58_only_static_of_assembly`.

Method: Follows the start of an execution in every reachable state.

Result: For every method of every registered type or loaded assembly, in every state reachable by a history of uses.

### C59: Unsupported instructions are reported

Status: proved. Theorems in PropsDecode.v: `C59_unsupported_instruction`, `C59_unsupported_run`.

Method: Cases over all opcodes.

Result: Every defined but unsupported instruction stops execution without an effect. Undefined opcode bytes panic.

### C60: Assembly references are resolved in search order

Status: partial. Theorems in PropsLoader.v: `C60_first_file`, `C60_no_file`, `C60_loaded_references`, `C60_loaded_twice_refuted`.

Method: Induction on the search path; file system as a function.

What is missing: The search order is proved. Loading by name does load twice (C60_loaded_twice_refuted); references that are loaded are not searched for.

### C61: Image data and embedded resources are returned exactly

Status: partial. Theorems in PropsMetadata.v, PropsPlaces.v: `C61_image_data_partial`, `C61_resource_data_partial`, `C61_image_data_refuted`, `C61_image_data_exactly`, `C61_resource_data_exactly`.

Method: Arithmetic on offsets inside the image. PropsPlaces has the outcome of every request.

What is missing: Exact for every request: C61_image_data_exactly and C61_resource_data_exactly say when there is data, an error or a panic. The English claim is false of requests that leave the file, which panic instead of returning an error (refuted).

### C62: A returned object is delivered to the caller

Status: partial. Theorems in PropsFrames.v: `C62_object_result_refuted`, `C62_other_results_partial`.

Method: Characterisation of the final step of an execution.

What is missing: False for objects: every execution that ends with an object reads freed memory (refuted). Proved for every other result.

### C63: Verifiable code keeps to its own operands

Status: proved. Theorems in PropsStack.v: `C63_operands_kept`, `C63_result_of_execution`.

Method: A checker-independent notion of consistent stacks (SpecStack); invariant over traces.

Result: For every set of methods with consistent stacks, closed under calls; at every moment of every execution.

### C64: Compiled structured programs behave as their source

Status: proved. Theorems in PropsLang.v: `C64_outcome`, `C64_only_outcomes`, `C64_no_outcome`.

Method: Big-step semantics of structured programs (SpecLang); forward simulation, determinacy for the converse, and divergence by a decreasing measure on budgets.

Result: Structured programs without calls, objects or arrays. Outcomes are exact in both directions, including divergence.

### C65: Type tokens resolve to their rows

Status: proved. Theorems in PropsLoader.v: `C65_type_tokens`, `C65_type_ref_tokens`, `C65_type_names`.

Method: As C34 for type definitions and type references.

Result: For images with consecutive lists and fewer than 2^24 types.

### C66: Members are found by name in their own type

Status: proved. Theorems in PropsLoader.v: `C66_field_by_name`, `C66_method_by_name`.

Method: Invariant of the member maps over histories (MemberFacts).

Result: For every reachable state.

### C67: Compiled programs with calls and output behave as their source

Status: proved. Theorems in PropsCalls.v: `C67_one_outcome`, `C67_outcome`, `C67_only_outcomes`, `C67_no_outcome`.

Method: Big-step semantics of functions, with the storage in use as part of the state (SpecCalls); simulation by mutual induction on it, and existence of an outcome by induction on the budget.

Result: For programs on 32-bit integers. Outcomes that exceed the initial storage for variables or read an unassigned variable are left open, as C53 and C56 say.

### C68: Loaded types are as their rows say

Status: proved. Theorems in PropsLoader.v: `C68_type_shape`, `C68_type_members`.

Method: Induction over the loops of the loader: each resolved type touches no other record and no name changes its meaning (array types that appear on the way have new names), so what was established for earlier rows still holds at the end; the interface rows are then followed one by one.

Result: Base type, kind, interfaces, fields and methods of every loaded type, for all well-formed metadata; a load that succeeds is assumed, as the property says.

### C69: Programs in images run as their source

Status: proved. Theorems in PropsImage.v: `C69_program`, `C69_console`.

Method: An image holds a program when its rows, heaps and bodies are the encodings of the functions (SpecImage); C34, C35 and C65 say what its tokens resolve to after the load, and C67 does the rest. That the console image provides the built-in writer follows from the same theorems about the load at startup.

Result: For images that load, have consecutive lists, and whose references are loaded already; member references all have type references as parents (C35).

### C70: The test program runs the entry point of its argument

Status: partial. Theorems in PropsImage.v, PropsLoad.v: `C70_test_program_partial`, `C70_entry_refuted`, `C70_from_images_partial`.

Method: Host models the test program. Loads and executions do not depend on the budget once it suffices (FuelFacts), so C69 can be applied to the states in the middle of the run. C71 replaces the assumption that the startup and the load succeed by conditions on the images.

What is missing: False as stated because of C10: what is run is the function in the row before the one in the header (C70_entry_refuted). Proved with that row, for startups and loads that succeed, and from conditions on the images alone (C70_from_images_partial).

### C71: Well-formed images load

Status: proved. Theorems in PropsLoad.v: `C71_load`, `C71_start`.

Method: SpecLoad says what an image has to be (loadable), with a plan that ranks types and bounds their sizes as the witness that layouts end. LoadRun and LoadLoops run the loader forward step by step under an invariant that says which names are known and that the types follow the plan; FuelFacts makes the result independent of the budget.

Result: The conditions are sufficient, not necessary. Images with value types of their own as locals, arguments or fields are covered; member references whose parent is not a type reference are ignored by the loader (C35). In debug builds the number of types has to stay below 2^32.

### C72: Borrows of runtime cells do not overlap

Status: partial. Theorems in PropsBorrow.v: `C72_own_borrows`, `C72_guards_partial`, `C72_types_refuted`.

Method: Borrows.v reduces every function that borrows a RefCell to the guards it takes, how long they live and what it calls meanwhile, with conditions and loops left open. An effect for each function bounds the cells that it and its callees borrow; the effects are shown to be closed under the bodies, and each guard to be apart from the effects of what runs under it. Induction on the execution does the rest.

What is missing: False as stated: a program that holds clr.types() or clr.assemblies() and asks for an array type, loads or runs can panic (C72_types_refuted). Proved: no function panics through its own borrows (C72_own_borrows), and with any views held a call can clash exactly if it may change the registry and a view of the types or assemblies is held (C72_guards_partial). Borrows.v leaves conditions open, so a clash there is possible in some state, not in each.

### C73: Executing a method has no undefined behaviour

Status: partial. Theorems in PropsSafety.v: `C73_safe_refuted`, `C73_safe_partial`, `C73_numbers_partial`, `C73_hazards_refuted`.

Method: SpecSafety lists the places that an execution reaches, also one that does not end, and the hazards. Without hazards, the heap is a sequence of whole objects, arrays and strings with the sizes of their types, every reference at hand points to the start of one of them, and variables lie within the first storage; each instruction keeps this (SafetyFacts, SafetyOps), and so do calls and returns (SafetyRuns). SafetyCheck follows concrete executions for the examples.

What is missing: False of the code: C73_safe_refuted has a loaded method that, given two numbers, writes outside the heap in both build profiles, and C73_hazards_refuted has an execution for each main kind of hazard. C73_safe_partial: for every history of the runtime, every method and all parameters that are numbers, an execution of any number of steps has no undefined behaviour if no place that it reaches (SpecSafety.reaches, also of executions that do not end) meets a hazard (SpecSafety.hazard), other than reading an object that it returns (C62). Missing, because false: the statement without the hazards. vectors says that no table of a loaded assembly has 2^63 rows or more.

### C74: Floating point arithmetic follows IEEE 754

Status: proved. Theorems in PropsFloat.v: `C74_double`, `C74_single`, `C74_neg`, `C74_unique`.

Method: SpecIeee states rounding over integers, in units of the smallest positive number, with no reference to the model. FloatRound proves what the rounding of the standard library's SpecFloat computes, FloatFields and FloatBits relate bit patterns and numbers and cover each operation, IeeeFacts proves that the specification determines the result.

Result: All five operations and neg, both formats, every pair of bit patterns; the specification is proved to determine the result up to the payload of a NaN.

### C75: Loading has no undefined behaviour

Status: proved. Theorems in PropsLoadSafe.v: `C75_load`, `C75_start`, `C75_metadata`, `C75_blobs`, `C75_test_program`, `C75_test_program_hazards`.

Method: SoundFacts has a predicate on programs (no undefined behaviour from any state that meets a condition, and the condition afterwards) with a rule for each way in which the model composes programs, and applies it to the byte reader: all that is needed is that buffers have less than 2^63 bytes and that counts have at most 32 bits. SoundLoad goes through tables, signatures, metadata and the loader. PropsLoadSafe joins this with C73 for the test program.

Result: The alignment of the data in memory is not modelled. C75_test_program_hazards joins this with C73.

### C76: Debug and release builds agree until an overflow

Status: proved. Theorems in PropsProfiles.v: `C76_image`, `C76_blobs`, `C76_load`, `C76_start`, `C76_execute`, `C76_test_program`, `C76_history`.

Method: A relation between the results of two builds that is closed under every way in which the model's programs are put together (binding, loops, readers inside readers, frames, error handlers), proved of each profile-dependent definition in turn (AgreeFacts.v, AgreeRuns.v); a second predicate, proved of every definition, says that no release build panics with one of the overflow messages (QuietFacts.v). Loops and recursion by induction on their length or fuel.

Result: Both builds are compared by one relation, with the panics that only a debug build has listed in SpecProfiles. What the builds do after the panic (unwinding) is not modelled; neither are the compiler optimisations of a release build.

### C77: Loading an assembly comes to an end

Status: partial. Theorems in PropsEnds.v: `C77_load_data_partial`, `C77_load_path_partial`, `C77_load_assembly_partial`, `C77_start_partial`, `C77_size_partial`, `C77_references_refuted`, `C77_sizes_refuted`, `C77_base_refuted`.

Method: SpecEnds gives an order on names of types (a rank, and which types are held by value) and levels of files. Every function of the loader is shown, by induction on its loops and on the order, to keep the types in order and never to run out of a depth of 2 * ranks + level + 3 calls (EndsFacts, EndsLoad, EndsRun). That no order means no end: for all sets of images that lead to one another and all sets of types that take one another's sizes, by induction on the depth; images that do so are checked by the kernel.

What is missing: Refuted as stated: assemblies that refer to one another, a class that extends itself, and structs that contain themselves never end. The partial theorems give a sufficient depth for all runtimes and all images whose types and references follow some order; running a method is the subject of C78.

### C78: Code without loops and recursion comes to an end

Status: proved. Theorems in PropsSteps.v: `C78_ends`, `C78_straight`, `C78_loop`, `C78_recursion`, `C78_loop_exists`, `C78_recursion_exists`.

Method: SpecSteps says from the encoding (C48) and the branch formats (C49) which address comes after which one and which method a call at an address enters. Every instruction is shown to leave the types and heaps as they were up to new objects and arrays and to move on to an address that comes after (StepsFacts); then by induction on the number that goes down. The case of forward branches gives the number (rank + 1) * (size + 1). The endless cases by induction on the number of steps.

Result: The types of the runtime must follow an order: taking the size of types that do not can go on forever (C77). Coming back includes coming back with an error, a panic or undefined behaviour (C73 and the other claims say which).

### C79: Numbers in memory are aligned

Status: partial. Theorems in PropsAlign.v: `C79_strings_refuted`, `C79_arrays_refuted`, `C79_objects_refuted`, `C79_first_refuted`, `C79_aligned_partial`, `C79_operands_refuted`.

Method: SpecAlign lists the numbers in a block of the heap by distance and size. With C39 (blocks follow one another without gaps) the addresses are known up to that of the heap; the theorems hold for every such address.

What is missing: Refuted for every address of the heap: of two strings, or two arrays of numbers of more than one byte, that follow one another one is misaligned; so is the first such thing on a heap at an even address, and there is a method with a misaligned operand wherever its code is. C79_aligned_partial gives a sufficient condition. Reads of image data are C87.

### C80: Parameters have the names and numbers of the Param table

Status: partial. Theorems in PropsParams.v: `C80_numbered_partial`, `C80_result_row_refuted`, `C80_other_rows_refuted`, `C80_no_rows_refuted`.

Method: SpecParams says which rows belong to a method and which name they give to a parameter. The loader's invariant (C34, C68) gives the row of every parameter; the theorems compare the two for all numberings of the rows.

What is missing: False: rows are taken by position and not by their sequence numbers. Refuted: with a row for the result every parameter has the name before its own; parameters of a method without rows have names of later methods, or the image cannot be loaded if there are no more rows. Proved where the rows of the method are numbered 1, 2, ... in order.

### C81: Texts identify what they show

Status: partial. Theorems in PropsTexts.v: `C81_token_text`, `C81_rva_text`, `C81_numbers_apart`, `C81_texts`, `C81_method_text_partial`, `C81_method_text_refuted`, `C81_kind_text`.

Method: The model of the Display implementations is Texts. Hexadecimal numbers are a relation between digits and numbers (SpecTexts); the texts of methods are taken apart at the first separator, by induction on the parameters.

What is missing: False for methods: namespaces are not shown, so different signatures can have the same text (refuted with two overloads). Proved: all texts exactly; tokens, addresses and kinds are told apart; method texts are told apart by the short names of the types when no name has spaces, commas or parentheses.

### C82: Type references stand for types of their scope

Status: partial. Theorems in PropsScopes.v: `C82_last_partial`, `C82_only_partial`, `C82_assembly_refuted`, `C82_nested_refuted`.

Method: SpecScopes says which assembly or type the scope of a reference row names and which assembly defined a type. The loader's invariant (C65) gives the type that the token stands for; it is compared with the scope for all histories.

What is missing: False: the scope of a reference is not looked at. C82_assembly_refuted: where another assembly registered a type of the same full name later, the reference stands for that one; C82_nested_refuted: references of one name stand for one type whatever types they are nested in (example with two nested types). Proved: where the last type registered under the name is of the named assembly (C82_last_partial), in particular where it is the only one (C82_only_partial), for images whose references are loaded.

### C83: Numbers are widened when loaded and narrowed when stored

Status: partial. Theorems in PropsWiden.v: `C83_field_partial`, `C83_field_refuted`, `C83_use_refuted`, `C83_variable_partial`, `C83_variable_refuted`.

Method: SpecWiden relates a value to the one the standard puts on the stack, and a stored number to what a variable of its type holds. The theorems are about the instructions at any place of any code, for all values, from C41 and C48.

What is missing: False of all short and unsigned integer types: C83_field_refuted (a field is loaded with its own width), C83_use_refuted (and combining it with an int constant panics), C83_variable_refuted (a number too large for the type of a variable is kept as it is). Proved for fields of the types that the stack has (C83_field_partial) and for numbers of the variable's type (C83_variable_partial). Storing short fields is C41_narrow_refuted; fields of type bool and char cannot be loaded at all (panic).

### C84: Room asked for in advance is in proportion to the input

Status: partial. Theorems in PropsReserve.v: `C84_notes_tables`, `C84_notes_signatures`, `C84_tables_partial`, `C84_latest_partial`, `C84_tables_refuted`, `C84_signatures_partial`, `C84_signatures_refuted`, `C84_nested_refuted`.

Method: Reserve writes the decoders once more with a note of each call of Vec::with_capacity, and C84_notes_* prove for all inputs that the notes change nothing else. The bounds come from a judgement that weighs bytes read against room asked for; the refutations build, for every count, an input of a few bytes.

What is missing: False as stated. Input that can be decoded asks for what it holds: as many rows as there are, two bytes or more each (C84_tables_partial), and no more elements than bytes for signatures (C84_signatures_partial); of table streams that cannot be decoded, only the latest request may be too large (C84_latest_partial). But counts are believed before the elements are read: 28 bytes ask for any number of rows below 2^32 (C84_tables_refuted), 5 or 6 bytes for any number of signature elements below 2^30 (C84_signatures_refuted), and nested types do so at every level (C84_nested_refuted). C84_notes_tables and C84_notes_signatures tie the annotated decoders to those of the other properties.

### C85: References are compared by identity

Status: partial. Theorems in PropsMixed.v: `C85_identity`, `C85_branch`, `C85_allocated`, `C85_literal_refuted`, `C85_condition_refuted`.

Method: One step of the interpreter on two references into the current buffer; different allocations from C39 and C40; the two loads of a literal are followed through the heap with C43.

What is missing: Identity of references and the freshness of allocations are proved while the heap has not moved. Refuted: each ldstr allocates a new object, so that the same literal loaded twice compares as different (C85_literal_refuted), and brtrue and brfalse panic for every reference (C85_condition_refuted). References into a buffer that has since been moved are outside the model (C40).

### C86: Operands of the same size work together whatever their declared types

Status: partial. Theorems in PropsMixed.v: `C86_equal_partial`, `C86_equal_refuted`, `C86_order_refuted`, `C86_arithmetic_refuted`, `C86_fresh_refuted`, `C86_shift_partial`, `C86_shift_refuted`.

Method: One step of the interpreter for every instruction with two operands and every pair of types; the fresh local from C56; shifts from C44.

What is missing: Operands of the same type work as C44-C47 say. Refuted for all pairs of different types of the same size: ceq and beq find equal numbers different, the other comparisons and all arithmetic panic, a fresh local differs from the constant zero, and a 64-bit number cannot be shifted by a 32-bit count.

### C87: What is read from an image is aligned

Status: partial. Theorems in PropsBodyAlign.v, PropsImageAlign.v, PropsWholeAlign.v: `C87_body_nothing_else`, `C87_tiny_body`, `C87_fat_body`, `C87_unaligned_body_refuted`, `C87_small_clauses_refuted`, `C87_row`, `C87_stream`, `C87_rows_refuted`, `C87_usual_refuted`, `C87_headers`, `C87_compressed`, `C87_literal`, `C87_literals_refuted`, `C87_neighbours_refuted`, `C87_nothing_else`, `C87_image_nothing_else`, `C87_image`, `C87_image_refuted`.

Method: Aligned, AlignedImage and AlignedBody have the readers once more with the address of the data; a misaligned access is undefined. SpecImageAlign lists the parts of rows, streams and literals with size and alignment; SpecWholeAlign adds the CLI header and the root. A relation between the two readers is kept by sequencing, so that the exact condition follows for whole streams by induction on the rows and for the whole image from the layout of C08. Method bodies are followed over the encodings of C29 and C30.

What is missing: Exact conditions for the headers (C87_headers), rows and streams of tables, compressed numbers, literals, the metadata of a whole image (C87_image) and method bodies (C87_tiny_body, C87_fat_body): read correctly if aligned, undefined if not, and nothing else differs (C87_nothing_else, C87_image_nothing_else, C87_body_nothing_else). Refuted wherever the image is: tables with two rows whose size is not a multiple of a column (in usual images, two types or two methods, C87_image_refuted), literals of 64 or more code units after another literal, and every method with exception clauses in the small form (C87_small_clauses_refuted). Not covered: the exact condition for all signatures in the blob heap at once.

### C88: Reading a truth value or a character is defined whatever the bytes are

Status: partial. Theorems in PropsImageAlign.v: `C88_truth_value_partial`, `C88_truth_value_refuted`, `C88_character_partial`, `C88_character_refuted`.

Method: Aligned has the reads of bool and char. The readers of the library ask for neither, so this is about the public API of the binary reader.

What is missing: Exact conditions (C88_truth_value_partial, C88_character_partial); refuted for bytes other than 0 and 1 and for surrogates.

### C89: What an object is never changes

Status: partial. Theorems in PropsAges.v: `C89_string_partial`, `C89_array_partial`, `C89_object_partial`, `C89_grows_partial`, `C89_reference_partial`, `C89_neighbour_refuted`.

Method: The proof of C73 carries the list of the blocks of the heap. It is made relative to the blocks at an earlier place: each of them may only have changed in the fields of an object or the elements of an array, and new ones may have come behind them. This is preserved by every instruction that meets no hazard, hence by every call and between any two places. The refutation is about one store instruction in any state.

What is missing: False of the code: C89_neighbour_refuted shows, for all states, a store of an int to a short at the end of an object that turns the array or string behind it into something else. C89_string_partial, C89_array_partial, C89_object_partial, C89_grows_partial and C89_reference_partial prove the property for every two places of every execution that starts with numbers and meets none of the hazards of C73 (which include that the heap stays within its first 1024 bytes).

### C90: Instructions are recognised as CIL defines them

Status: partial. Theorems in PropsMnemonic.v: `C90_named_partial`, `C90_supported`, `C90_one_instruction`, `C90_unknown_refuted`, `C90_no_refuted`, `C90_prefix7_partial`.

Method: SpecMnemonics lists the instructions of ECMA-335 III with their bytes and mnemonics. The table of opcodes of the code is compared with it entry by entry inside the logic, which gives, for every instruction, the opcode with those bytes and that name; the rest is C59's theorem on one instruction. For bytes that are no instruction the fetch is followed for every first and second byte.

What is missing: Proved: every instruction of CIL except no. is recognised and, when it is not supported, reported under its mnemonic with the state unchanged; what is supported are instructions of CIL; at most one instruction stands at a place. Refuted: bytes that are no instruction, the end of the code and no. end the process. Not part of it: what the supported instructions do (C48, C50 to C58 and others).

### C91: Only stores change the heap

Status: proved. Theorems in PropsStores.v: `C91_memory`, `C91_grows`, `C91_ways`, `C91_field`, `C91_element`.

Method: SpecStores defines the ways from one place of an execution to another, with all moments in between, and which bytes the instruction at a moment stores to. Every instruction is shown either to leave the bytes of the heap alone, possibly adding more behind them, or to be one of the two stores (StoreFacts; an allocation whose size has wrapped around does not end well); induction over ways and traces gives the rest (StoreRuns). For objects and arrays, the invariant of C73 and C89 gives the blocks of the heap at both ends and at every moment: a store stays within the block of its reference, and different references have different blocks.

Result: The values of fields and elements are those of executions without hazards; with hazards see C89_neighbour_refuted.

### C92: Executing a method again gives the same result

Status: proved. Theorems in PropsAgain.v: `C92_again`, `C92_loads`, `C92_before`, `C92_kept`.

Method: A relation between runtimes says that the second has the array types of the first and possibly more. Every function that executions use is shown (AgainFacts) to lead to such an extension and, started again in any extension of where it ended, to do the same except that it finds the array types that it created the first time; this composes under sequencing, so it holds for every instruction, the loop, calls and execute. PropsAgain applies it to the states that executions lead to; C54 gives the independence of the budget.

Result: C92_again: executions and requests for array types in between; C92_loads: loads as well. Loads that define types with names of the class library or of array types again are left out of the property.

### C93: Error messages of an execution say what went wrong and where

Status: partial. Theorems in PropsMessages.v: `C93_text`, `C93_explained_partial`, `C93_execution_partial`, `C93_misleading_refuted`, `C93_offset_refuted`, `C93_ldelem_refuted`, `C93_entry`.

Method: Messages goes through each instruction once more up to where it fails and builds the whole text; how floats and addresses are printed is a parameter. MessageFacts shows for every primitive that it does not fail, and for every instruction that a text is given exactly if the step of Interp fails, and starts with the error of that step. SpecMessages says what a text has to say about the instruction at hand (explains) and the three ways in which texts are wrong (misleads); PropsMessages shows that every text does one or the other and never both, by inverting the run of each instruction, and carries this to executions by induction over traces: the last moment of a failed one is the failing instruction.

What is missing: Every error of an execution has a text that starts with the error of the model (C93_text, C93_execution_partial); it explains the error, or is one of three that do not: an unsupported two-byte instruction is reported at the offset of its second byte (C93_offset_refuted), ldelem.i4 on something that is no array is reported as Stelem (C93_ldelem_refuted), and the byte 0xf8 as an instruction Prefix7. C93_misleading_refuted: these texts never explain the error. The digits of floats and addresses are left open. The theorem about offsets assumes code shorter than 2^63 bytes, as every Rust slice is.

### C94: The errors of a load name what is missing and who refers to it

Status: proved. Theorems in PropsLoadMessages.v: `C94_named`, `C94_by_name`, `C94_fails`, `C94_silent`.

Method: LoadMessages goes through a load once more, up to the types that are referred to, and gives the whole text of the error. SpecLoadMessages says what it means that a load lacks something (lacks), in terms of the rows of the image, the files, and the types, methods and assemblies that are there; further_down is the case of an assembly that is loaded for a reference. LoadMessageFacts shows that the rows are gone through in order, that a load with a text fails and that one that succeeds has none; PropsLoadMessages shows that the text is t exactly when the load lacks what t names, by induction over the chain of references.

Result: The texts of errors for files that cannot be read, for metadata that cannot be read, and for contents that cannot be resolved are not modelled; the theorems are about the five texts of the statement. fuel bounds the depth of the chain of references.

### C95: Assemblies are loaded under the names of their images and stay loaded, and so do those they refer to

Status: partial. Theorems in PropsReferences.v: `C95_named`, `C95_named_by_name`, `C95_stays`, `C95_stays_by_name`, `C95_stays_later`, `C95_system`, `C95_references_partial`, `C95_references_honest_partial`, `C95_one`, `C95_references_refuted`.

Method: KnownFacts: no step of a load changes the name of an assembly or takes one off the list (known is kept by every function of the loader, on success and on error, by induction over the loops and over the depth of the references). load_phases splits a successful load into its references and the rest. PropsReferences: the references by induction over their rows (obtained of SpecLoadMessages); that they are loaded under the name of the reference is false when a file holds an assembly of another name (C95_references_refuted), and holds otherwise.

What is missing: Proved: the name, that what is loaded stays loaded (with the two system assemblies), and that one assembly is added if the references were loaded before. The sentence about references (they are loaded afterwards under the name of the reference) is false: the file that is found for a reference is loaded whatever the name of the assembly in it, and this name is not compared with that of the reference (C95_references_refuted: the client refers to Helper, Helper.dll holds Zoo, the load succeeds and no Helper is loaded). C95_references_partial: that is the only exception, and then the assembly is loaded under its own name; C95_references_honest_partial: the sentence holds when the files have the names of their assemblies.

### C96: Loads and runs depend on no files but those that are found for assembly names

Status: proved. Theorems in PropsDisk.v: `C96_loads`, `C96_from_path`, `C96_start`, `C96_elsewhere`, `C96_hidden`, `C96_no_disk`, `C96_program`.

Method: SpecDisk says what is found for a name (found) and when two disks agree (same_finds). PropsDisk: load_data on the two disks is compared step by step, by induction over the depth of the references and over the rows, in states that are consistent and have the search paths (both kept by loads); C96_elsewhere and C96_hidden give conditions on the files under which the disks agree; C96_program compares the runs of Host.test_program. As in Loader.v, names are taken to be plain file names.

Result: C96_loads, C96_from_path, C96_start and C96_program are about two disks on which the same is found; C96_elsewhere and C96_hidden give the particular cases by showing that the disks are such. fuel bounds the depth of the references and the steps; running out of it is among the outcomes that are compared. Names are taken to be plain file names (Loader.resolve_assembly_name), and the disk does not change during a load.

