{"id": "C01", "title": "Fixed-size reads are exact and bounded", "statement": "Reading an n-byte little-endian value at the cursor succeeds exactly when n bytes remain, yields the little-endian value of precisely those bytes, moves the cursor by exactly n, and otherwise returns nothing and leaves the cursor and data untouched; it never touches memory outside the buffer.", "quantifier": "all buffers, cursor positions and value widths", "why_tests_cant": "Out-of-bounds behaviour and cursor motion must be right for every buffer/position pair, not the few a test builds.", "anchors": ["binary_reader/src/lib.rs:BinaryReader::peek", "binary_reader/src/lib.rs:BinaryReader::read"]}
{"id": "C02", "title": "Array reads never leave the buffer and agree with element reads", "statement": "Reading an array of n elements returns exactly the n consecutive elements at the cursor whenever they fit, moves the cursor by their total size, returns nothing and does not move when they do not fit, and peeking the same array returns what reading it would.", "quantifier": "all buffers, cursor positions, element sizes and element counts", "why_tests_cant": "The size computation n*size and the boundary comparison are only wrong at extreme or exact-fit inputs.", "anchors": ["binary_reader/src/lib.rs:BinaryReader::peek_array", "binary_reader/src/lib.rs:BinaryReader::read_array"]}
{"id": "C03", "title": "C-string reads stop at the first NUL", "statement": "Reading a NUL-terminated string returns exactly the bytes before the first NUL at or after the cursor, only if they are valid UTF-8, and leaves the cursor on that NUL; without a NUL or with invalid UTF-8 it returns nothing.", "quantifier": "all buffers and cursor positions", "why_tests_cant": "Terminator placement and encoding validity range over all byte strings.", "anchors": ["binary_reader/src/lib.rs:BinaryReader::read_str", "binary_reader/src/lib.rs:BinaryReader::read_c_str"]}
{"id": "C04", "title": "PE parsing accepts exactly the well-formed headers", "statement": "Parsing a file succeeds exactly when the DOS signature, the PE signature at the offset stored at 0x3c, a PE32 or PE32+ optional header, all data directories and all section headers lie inside the file, and it then returns exactly the values stored there.", "quantifier": "all byte strings", "why_tests_cant": "Acceptance is a claim about every file; a test can only show particular files.", "anchors": ["clr_lite/src/pe.rs:parse_pe"]}
{"id": "C05", "title": "PE parsing is total on hostile input", "statement": "Parsing any byte string as a PE file returns a value or an error; it never panics and never reads outside the file.", "quantifier": "all byte strings", "why_tests_cant": "Hostile input space is unbounded.", "anchors": ["clr_lite/src/pe.rs:parse_pe"]}
{"id": "C06", "title": "RVA resolution is sound and complete", "statement": "Resolving a virtual address returns the file offset in the first section whose raw range contains it (offset from the section start is preserved), and fails exactly when no section contains it.", "quantifier": "all section tables and all 32-bit addresses", "why_tests_cant": "Section tables can be arbitrary, overlapping or adjacent; off-by-one and wrap-around show only at boundaries.", "anchors": ["clr_lite/src/pe.rs:resolve_rva", "clr_lite/src/pe.rs:resolve_rva_"]}
{"id": "C07", "title": "Metadata loading is total on hostile input", "statement": "Reading metadata from any byte string returns metadata or an error and never panics.", "quantifier": "all byte strings", "why_tests_cant": "Hostile input space is unbounded.", "anchors": ["clr_lite/src/metadata/mod.rs:Metadata::read"]}
{"id": "C08", "title": "Every metadata stream is located exactly", "statement": "When the metadata root is well formed, each of the five streams is read from precisely the bytes its header designates, whatever the header order, name padding and version-string length.", "quantifier": "all metadata roots: any version length, any stream order, sizes and offsets", "why_tests_cant": "Alignment arithmetic must be right for all name lengths and positions.", "anchors": ["clr_lite/src/metadata/mod.rs:Metadata::read"]}
{"id": "C09", "title": "Metadata tokens round-trip", "statement": "A token built from a row number and a table gives back that row number and table.", "quantifier": "all row numbers and tables", "why_tests_cant": "Field overlap in the packed word only appears at large row numbers.", "anchors": ["clr_lite/src/metadata/metadata_token.rs:MetadataToken"]}
{"id": "C10", "title": "The entry point is the method named by the CLI header", "statement": "Executing the entry point runs the method whose row number is in the CLI header entry-point token.", "quantifier": "all images with an entry-point token", "why_tests_cant": "An off-by-one between two index conventions is invisible when only one method can be picked up.", "anchors": ["clr_lite/src/metadata/mod.rs:Metadata::read", "clr_lite/src/vm/reflection/assembly.rs:Assembly::load", "clr_lite/src/vm/reflection/assembly.rs:Assembly::resolve_method"]}
{"id": "C11", "title": "String-heap lookups are correct", "statement": "Looking up an index in the string heap returns the NUL-terminated UTF-8 text starting there, and nothing if the index is outside the heap, unterminated or not UTF-8; it never panics.", "quantifier": "all heaps and all indices", "why_tests_cant": "Every index of every heap has to be right.", "anchors": ["clr_lite/src/metadata/strings_heap.rs:StringsHeap::get"]}
{"id": "C12", "title": "The string cache is transparent", "statement": "The answer of a string lookup does not depend on which lookups were made before.", "quantifier": "all heaps and all finite histories of lookups", "why_tests_cant": "Statement about all histories.", "anchors": ["clr_lite/src/metadata/strings_heap.rs:StringsHeap::get"]}
{"id": "C13", "title": "Blob readers are confined to their blob", "statement": "A reader obtained for a blob sees exactly the bytes the blob's length prefix covers: no sequence of reads can observe bytes before or after the blob.", "quantifier": "all blob heaps, all blob offsets, all continuations of the heap", "why_tests_cant": "Non-interference: ranges over all surrounding heap contents.", "anchors": ["clr_lite/src/metadata/blob_heap.rs:BlobHeap::new_reader", "clr_lite/src/metadata/blob/blob_reader.rs:BlobReader::new"]}
{"id": "C14", "title": "Compressed unsigned integers round-trip", "statement": "Decoding the ECMA-335 compressed encoding of any n below 2^29 returns n and consumes exactly the encoding (1, 2 or 4 bytes).", "quantifier": "all n < 2^29 and all following bytes", "why_tests_cant": "2^29 values with three encodings; the boundaries are where errors hide.", "anchors": ["clr_lite/src/metadata/blob/blob_reader.rs:BlobReader::read_compressed_u32"]}
{"id": "C15", "title": "Compressed-integer decoding never panics", "statement": "Decoding a compressed integer from any bytes returns a value below 2^30 or an error; on error the cursor does not move.", "quantifier": "all byte strings and positions", "why_tests_cant": "Arithmetic underflow would be hit only by particular lead bytes.", "anchors": ["clr_lite/src/metadata/blob/blob_reader.rs:BlobReader::read_compressed_u32"]}
{"id": "C16", "title": "User strings round-trip", "statement": "A user string stored as UTF-16 code units followed by the ECMA flag byte is read back as exactly those code units.", "quantifier": "all sequences of UTF-16 code units that fit in a blob", "why_tests_cant": "Every length parity and content has to work.", "anchors": ["clr_lite/src/metadata/blob/blob_reader.rs:BlobReader::read_utf16_str", "clr_lite/src/vm/reflection/assembly.rs:Assembly::get_string"]}
{"id": "C17", "title": "Element types round-trip", "statement": "Decoding the ECMA-335 encoding of any element type, nested to any depth, yields that type and consumes exactly its encoding.", "quantifier": "all element types (pointers, by-refs, arrays of any rank, generic instantiations, ...) of any depth", "why_tests_cant": "The type grammar is recursive, so the domain is infinite.", "anchors": ["clr_lite/src/metadata/blob/element_type.rs:ElementType", "clr_lite/src/metadata/blob/array_shape.rs:ArrayShape", "clr_lite/src/metadata/blob/type_def_or_ref.rs:TypeDefOrRef"]}
{"id": "C18", "title": "Signature decoding terminates and never panics", "statement": "Decoding an element type, method, property, local-variable, method-spec or type-spec signature from any bytes terminates with a value or an error, never a panic, and never reads past the blob.", "quantifier": "all byte strings", "why_tests_cant": "Recursion on attacker-controlled data: termination and totality quantify over all inputs.", "anchors": ["clr_lite/src/metadata/blob/element_type.rs", "clr_lite/src/metadata/blob/method_signature.rs", "clr_lite/src/metadata/blob/property_signature.rs", "clr_lite/src/metadata/blob/field_signature.rs", "clr_lite/src/metadata/blob/method_spec.rs", "clr_lite/src/metadata/blob/type_spec.rs"]}
{"id": "C19", "title": "Array shapes round-trip with signed lower bounds", "statement": "Decoding the ECMA-335 encoding of an array shape returns its rank, sizes and (signed) lower bounds.", "quantifier": "all ranks, size lists and lower-bound lists", "why_tests_cant": "Signed encodings only differ from unsigned ones on part of the range.", "anchors": ["clr_lite/src/metadata/blob/array_shape.rs:ArrayShape"]}
{"id": "C20", "title": "Method, field, property and method-spec signatures round-trip", "statement": "Decoding the ECMA-335 encoding of a method, field, property, method-spec or type-spec signature returns exactly its flags, generic arity, parameter types in order and return type, and consumes exactly the encoding.", "quantifier": "all signatures with any number of parameters of any type", "why_tests_cant": "Infinite recursive domain; parameter order and count matter.", "anchors": ["clr_lite/src/metadata/blob/method_signature.rs:MethodSignature", "clr_lite/src/metadata/blob/field_signature.rs:FieldSignature", "clr_lite/src/metadata/blob/property_signature.rs:PropertySignature", "clr_lite/src/metadata/blob/method_spec.rs:MethodSpec", "clr_lite/src/metadata/blob/type_spec.rs:TypeSpec"]}
{"id": "C21", "title": "Marshalling descriptors round-trip", "statement": "Decoding the encoding of a marshalling descriptor yields the native type and, for arrays, its element type and optional size parameter and element count; trailing components may be absent.", "quantifier": "all native types and all optional components", "why_tests_cant": "Optional trailing components interact with the end of the blob.", "anchors": ["clr_lite/src/metadata/blob/marshalling_descriptor.rs:MarshallingDescriptor"]}
{"id": "C22", "title": "Simple table indexes have the right width", "statement": "A column that indexes a table is read as two bytes exactly when every row number of that table fits in 16 bits, and as four bytes otherwise.", "quantifier": "all row-count vectors", "why_tests_cant": "The switch happens at 65536 rows, which no test fixture reaches.", "anchors": ["clr_lite/src/metadata/tables/mod.rs:TableReader::read"]}
{"id": "C23", "title": "Coded indexes have the right width", "statement": "A coded-index column is read as two bytes exactly when every row number of every table it can refer to fits beside the tag in 16 bits (ECMA-335 II.24.2.6), and as four bytes otherwise.", "quantifier": "all row-count vectors and all thirteen coded-index kinds", "why_tests_cant": "Boundary row counts such as 2048 or 16384 are not in any fixture.", "anchors": ["clr_lite/src/metadata/tables/mod.rs:is_coded_index_wide"]}
{"id": "C24", "title": "Coded indexes round-trip", "statement": "Reading the ECMA-335 encoding of a reference to row i of a table through any coded-index kind, narrow or wide, yields a reference to row i of that table; an unassigned tag is an error.", "quantifier": "all coded-index kinds, tags and row numbers", "why_tests_cant": "Thirteen tag tables times 2^32 values.", "anchors": ["clr_lite/src/metadata/tables/coded_index/", "clr_lite/src/metadata/tables/mod.rs:TableReader"]}
{"id": "C25", "title": "Every table row is decoded as ECMA-335 lays it out", "statement": "For each of the 38 tables, reading a row from its ECMA-335 encoding yields a row whose every column has the encoded value, and consumes exactly the row size implied by the index widths.", "quantifier": "all rows, all heap-size flags and all row-count vectors", "why_tests_cant": "Column widths interact combinatorially.", "anchors": ["clr_lite/src/metadata/tables/mod.rs:TableReader::read_tables", "clr_lite/src/metadata/tables/*.rs:read_row"]}
{"id": "C26", "title": "The table stream round-trips", "statement": "Reading a table stream encoded per ECMA-335 from any collection of tables returns all rows of all tables, in order, each in its own table.", "quantifier": "all collections of tables with any row counts", "why_tests_cant": "Row counts are assigned to tables through a bit mask; any subset of tables may be present.", "anchors": ["clr_lite/src/metadata/tables/mod.rs:TableReader::read", "clr_lite/src/metadata/tables/mod.rs:TableReader::read_table"]}
{"id": "C27", "title": "Table handles index the right row", "statement": "Indexing a table with row number k (1-based) returns its k-th row; converting a zero-based position to a handle and indexing with it returns the row at that position, for every table.", "quantifier": "all tables, all sizes and positions", "why_tests_cant": "Per-table conversions are hand-written 38 times.", "anchors": ["clr_lite/src/metadata/tables/mod.rs:Table", "clr_lite/src/metadata/tables/interface_impl.rs:InterfaceImplHandle"]}
{"id": "C28", "title": "Attribute words are decoded faithfully", "statement": "Decoding any type, field, method, parameter, event, property, P/Invoke, generic-parameter, assembly or method-semantics attribute word yields exactly the flags that ECMA-335 assigns to its bits, and unassigned enumeration values are errors rather than wrong values.", "quantifier": "all 2^16 / 2^32 attribute words", "why_tests_cant": "Each flag has to be independent of all others.", "anchors": ["clr_lite/src/metadata/tables/type_def.rs", "clr_lite/src/metadata/tables/field.rs", "clr_lite/src/metadata/tables/method_def.rs", "clr_lite/src/metadata/tables/param.rs", "clr_lite/src/metadata/tables/impl_map.rs", "clr_lite/src/metadata/tables/generic_param.rs", "clr_lite/src/metadata/tables/method_semantics.rs", "clr_lite/src/metadata/tables/assembly.rs"]}
{"id": "C29", "title": "Method bodies are decoded exactly", "statement": "Decoding the ECMA-335 encoding of a method body (tiny or fat) returns its code bytes, stack limit and locals unchanged.", "quantifier": "all code sizes, stack limits and local lists", "why_tests_cant": "Header formats, size fields and padding vary with size.", "anchors": ["clr_lite/src/vm/reflection/method_body.rs:MethodBody::load"]}
{"id": "C30", "title": "Exception clauses are decoded exactly", "statement": "All exception clauses of a fat body, in small or fat form, are returned in order with their offsets, lengths and kinds.", "quantifier": "all numbers of clauses and all field values", "why_tests_cant": "Alignment padding and count arithmetic depend on code length and clause count.", "anchors": ["clr_lite/src/vm/reflection/method_body.rs:MethodBody::load", "clr_lite/src/vm/reflection/method_body.rs:ExceptionClause::new"]}
{"id": "C31", "title": "Type identifiers identify types", "statement": "After any sequence of assembly loads and array-type creations, every registered type's identifier finds that same type again, and distinct types have distinct identifiers.", "quantifier": "all histories of registrations", "why_tests_cant": "Statement about all histories.", "anchors": ["clr_lite/src/vm/mod.rs:ClrLite::add_type", "clr_lite/src/vm/mod.rs:ClrLite::next_type_id", "clr_lite/src/vm/reflection/type.rs:Type::load"]}
{"id": "C32", "title": "Type lookup by name returns the registered type", "statement": "Looking up a full name returns the type most recently registered under that name and nothing if none was.", "quantifier": "all histories of registrations and all names", "why_tests_cant": "Statement about all histories.", "anchors": ["clr_lite/src/vm/mod.rs:ClrLite::get_type", "clr_lite/src/vm/mod.rs:ClrLite::add_type"]}
{"id": "C33", "title": "Array types are unique", "statement": "Asking for the array type of the same element type twice returns the same type and registers nothing new; the array type's element type is the one asked for.", "quantifier": "all registries and element types", "why_tests_cant": "Requires an invariant over all histories.", "anchors": ["clr_lite/src/vm/reflection/type.rs:Type::get_or_create_array_type"]}
{"id": "C34", "title": "Field tokens resolve to their rows", "statement": "A field token k resolves to the field described by row k of the field table, and a method-definition token k to the method of row k.", "quantifier": "all metadata with consecutive field and method lists, any number of types", "why_tests_cant": "Depends on the concatenation of all types' member ranges.", "anchors": ["clr_lite/src/vm/reflection/type.rs:Type::resolve_fields", "clr_lite/src/vm/reflection/type.rs:Type::resolve_methods", "clr_lite/src/vm/reflection/assembly.rs:Assembly::resolve_field", "clr_lite/src/vm/reflection/assembly.rs:Assembly::resolve_method"]}
{"id": "C35", "title": "Member references resolve to the referenced method", "statement": "A MemberRef token k resolves to the method that row k of the MemberRef table names.", "quantifier": "all MemberRef tables with any mix of parents", "why_tests_cant": "Skipped rows shift later ones only for certain mixes.", "anchors": ["clr_lite/src/vm/reflection/assembly.rs:Assembly::load", "clr_lite/src/vm/reflection/assembly.rs:Assembly::resolve_method"]}
{"id": "C36", "title": "Instance fields do not overlap and lie inside the object", "statement": "The byte ranges of any two distinct instance fields of an object, inherited ones included, are disjoint and inside the space allocated for the object.", "quantifier": "all class hierarchies with any fields", "why_tests_cant": "Layout depends on every field kind and on declaration order.", "anchors": ["clr_lite/src/vm/reflection/type.rs:Type::resolve_fields", "clr_lite/src/vm/reflection/type.rs:Type::size"]}
{"id": "C37", "title": "instance_of is the subtype relation", "statement": "A type is an instance of itself, of all its transitive bases and of every interface that it or a base implements, and of nothing else.", "quantifier": "all type hierarchies", "why_tests_cant": "Infinite family of hierarchies.", "anchors": ["clr_lite/src/vm/reflection/type.rs:Type::instance_of"]}
{"id": "C38", "title": "Failed assembly loads leave the runtime unchanged", "statement": "If loading an assembly fails, the types known to the runtime are those known before.", "quantifier": "all images and runtime states", "why_tests_cant": "Every failure point of the load has to be considered.", "anchors": ["clr_lite/src/vm/mod.rs:ClrLite::load_assembly", "clr_lite/src/vm/reflection/assembly.rs:Assembly::load"]}
{"id": "C39", "title": "Allocations are fresh and disjoint", "statement": "Each allocation returns zeroed storage with the requested type that overlaps no earlier allocation, and leaves the contents of every earlier object, array and string unchanged.", "quantifier": "all histories of allocations of objects, arrays and strings", "why_tests_cant": "Statement about all histories.", "anchors": ["clr_lite/src/vm/gc/mod.rs:GcHeap"]}
{"id": "C40", "title": "References stay valid", "statement": "A reference returned by the allocator remains usable for the rest of the run, however much is allocated later.", "quantifier": "all histories of allocations", "why_tests_cant": "A buffer move needs a particular amount of allocation.", "anchors": ["clr_lite/src/vm/gc/mod.rs:GcHeap::ensure_size", "clr_lite/src/vm/gc/object.rs:Object"]}
{"id": "C41", "title": "Field writes are read back and touch nothing else", "statement": "Storing a value of the field's type and loading the field returns that value; every other field of every object keeps its value.", "quantifier": "all objects, fields and values", "why_tests_cant": "Aliasing between fields needs all layouts and values.", "anchors": ["clr_lite/src/vm/gc/raw_object.rs:RawObject"]}
{"id": "C42", "title": "Array accesses are bounds-checked and exact", "statement": "Storing at index i in range and loading index j returns the stored value if i=j and the old value otherwise; an index out of range never reads or writes memory.", "quantifier": "all arrays, lengths, element types and indices", "why_tests_cant": "Every index and length.", "anchors": ["clr_lite/src/vm/gc/array.rs:Array"]}
{"id": "C43", "title": "String objects keep their contents", "statement": "A string object's text is the code units it was allocated with, after any number of later allocations that do not move the heap.", "quantifier": "all strings and histories", "why_tests_cant": "Histories.", "anchors": ["clr_lite/src/vm/gc/mod.rs:GcHeap::alloc_string", "clr_lite/src/vm/gc/string.rs"]}
{"id": "C44", "title": "Integer arithmetic follows CIL", "statement": "add, sub, mul, neg, and, or, xor on two 32- or 64-bit integers give the two's-complement result modulo 2^32 or 2^64 in a release build; in a debug build the exact result or a panic on overflow, never a wrong value.", "quantifier": "all pairs of operands", "why_tests_cant": "2^64 to 2^128 pairs.", "anchors": ["clr_lite/src/vm/interpreter/value.rs"]}
{"id": "C45", "title": "Division and remainder truncate", "statement": "div and rem on integers of equal type truncate toward zero with the remainder taking the dividend's sign, and fail exactly on a zero divisor or the overflowing quotient.", "quantifier": "all pairs of operands", "why_tests_cant": "All pairs.", "anchors": ["clr_lite/src/vm/interpreter/value.rs"]}
{"id": "C46", "title": "Unsigned instructions treat operands as unsigned", "statement": "div.un, rem.un, cgt.un, clt.un and the unsigned branches treat integer operands as unsigned.", "quantifier": "all pairs of operands", "why_tests_cant": "Differs only when a top bit is set.", "anchors": ["clr_lite/src/vm/interpreter/stack_frame.rs:StackFrame::execute"]}
{"id": "C47", "title": "Comparison and branch agree", "statement": "The value pushed by ceq, cgt, clt is 1 or 0 according to the mathematical order of the operands and each conditional branch is taken exactly when the corresponding comparison holds.", "quantifier": "all operands of equal type", "why_tests_cant": "All operands.", "anchors": ["clr_lite/src/vm/interpreter/stack_frame.rs:StackFrame::execute"]}
{"id": "C48", "title": "Instruction operands are decoded as CIL encodes them", "statement": "Every supported instruction consumes exactly the operand bytes that ECMA-335 III assigns to it.", "quantifier": "all supported instructions and operands", "why_tests_cant": "Operand width errors only show for rarely used long forms.", "anchors": ["clr_lite/src/vm/interpreter/stack_frame.rs:StackFrame::execute", "clr_lite/src/vm/interpreter/opcodes.rs"]}
{"id": "C49", "title": "Branch targets are relative to the next instruction", "statement": "A taken branch continues at the address of the following instruction plus the signed displacement.", "quantifier": "all programs, addresses and displacements (forward and backward)", "why_tests_cant": "All displacements.", "anchors": ["clr_lite/src/vm/interpreter/stack_frame.rs:StackFrame::execute"]}
{"id": "C50", "title": "Arguments are passed in order", "statement": "In a call, the i-th parameter of the callee is the i-th argument pushed, the arguments are removed from the caller's stack, and exactly the returned value (if any) is pushed.", "quantifier": "all methods, numbers of parameters and stacks", "why_tests_cant": "All arities and stack contents.", "anchors": ["clr_lite/src/vm/interpreter/stack_frame.rs:StackFrame::method_call"]}
{"id": "C51", "title": "Frames release exactly what they allocated", "statement": "When a call returns, normally or with an error, the frame storage is back to what it was when the frame began.", "quantifier": "all programs and call depths", "why_tests_cant": "All executions.", "anchors": ["clr_lite/src/vm/interpreter/stack_frame.rs:StackFrame::stackalloc", "clr_lite/src/vm/interpreter/stack_frame.rs:Drop"]}
{"id": "C52", "title": "A callee cannot change its caller's variables", "statement": "Locals and arguments of a frame change only through instructions of that frame.", "quantifier": "all programs and call depths", "why_tests_cant": "Non-interference over all executions.", "anchors": ["clr_lite/src/vm/interpreter/stack_frame.rs"]}
{"id": "C53", "title": "Frame storage stays valid during a frame's life", "statement": "A frame's locals and arguments remain accessible for as long as the frame runs.", "quantifier": "all programs and call depths", "why_tests_cant": "Buffer growth needs deep or repeated calls.", "anchors": ["clr_lite/src/vm/interpreter/stack_frame.rs:StackFrame::stackalloc"]}
{"id": "C54", "title": "Execution is deterministic and resource-independent", "statement": "Running a method on given arguments in a given runtime state has at most one outcome, which does not depend on the evaluation budget once it is large enough.", "quantifier": "all programs and arguments", "why_tests_cant": "All executions.", "anchors": ["clr_lite/src/vm/interpreter/mod.rs", "clr_lite/src/vm/mod.rs:ClrLite::execute"]}
{"id": "C55", "title": "Console output is append-only", "statement": "Executing a program only ever appends to the console output, and the text appended is the concatenation of the strings written in order.", "quantifier": "all programs and executions", "why_tests_cant": "All executions.", "anchors": ["clr_lite/src/vm/internal_method/", "clr_lite/src/vm/mod.rs:ClrLite"]}
{"id": "C56", "title": "Locals start as zero of their type", "statement": "A local that has not been assigned reads as the zero value of its declared type.", "quantifier": "all local types", "why_tests_cant": "Every local type.", "anchors": ["clr_lite/src/vm/interpreter/mod.rs", "clr_lite/src/vm/interpreter/stack_frame.rs"]}
{"id": "C57", "title": "Compiled expressions evaluate correctly", "statement": "Executing straight-line CIL compiled from any integer expression returns the value of the expression.", "quantifier": "all expressions of any depth and all parameter values", "why_tests_cant": "Infinite family of programs.", "anchors": ["clr_lite/src/vm/interpreter/stack_frame.rs:StackFrame::execute"]}
{"id": "C58", "title": "Only static methods start an execution", "statement": "Executing a non-static method returns an error and changes nothing.", "quantifier": "all methods, arguments and runtime states", "why_tests_cant": "All states.", "anchors": ["clr_lite/src/vm/mod.rs:ClrLite::execute"]}
{"id": "C59", "title": "Unsupported instructions are reported", "statement": "Executing an instruction the interpreter defines but does not implement returns an error naming it, without altering console output.", "quantifier": "all such opcodes and states", "why_tests_cant": "All opcodes.", "anchors": ["clr_lite/src/vm/interpreter/stack_frame.rs:StackFrame::execute", "clr_lite/src/vm/interpreter/opcodes.rs"]}
{"id": "C60", "title": "Assembly references are resolved in search order", "statement": "Loading an assembly by name returns the already loaded assembly of that name if there is one, and otherwise reads the first existing file in the search order; loading twice does not load twice.", "quantifier": "all search paths, file systems and names", "why_tests_cant": "All file systems and histories.", "anchors": ["clr_lite/src/vm/mod.rs:ClrLite::load_assembly", "clr_lite/src/vm/mod.rs:ClrLite::resolve_assembly_name"]}
{"id": "C61", "title": "Image data and embedded resources are returned exactly", "statement": "Asking an image for the bytes at an address range inside one section returns exactly the bytes stored there, and asking for the embedded resource at an offset returns exactly the bytes its four-byte length prefix covers; a request that leaves the file is an error.", "quantifier": "all images, address ranges, resource offsets and lengths", "why_tests_cant": "Addresses, offsets and lengths combine arithmetic over every section layout.", "anchors": ["clr_lite/src/metadata/mod.rs:Metadata::get_pe_data", "clr_lite/src/metadata/mod.rs:Metadata::get_resource_data"]}
{"id": "C62", "title": "A returned object is delivered to the caller", "statement": "Executing a method whose result is an object gives the host the data of that object, and any other result or error is given unchanged.", "quantifier": "all methods, arguments, results and runtime states", "why_tests_cant": "The memory that held the object may still look intact in a test run; whether it is still owned has to be settled for every execution.", "anchors": ["clr_lite/src/vm/mod.rs:ClrLite::execute"]}
{"id": "C63", "title": "Verifiable code keeps to its own operands", "statement": "A method whose code obeys the stack discipline of the CIL (known depth at every address, result only at return), calling only such methods, never touches the operands of its callers, and when it returns it has a result exactly if its return type is not void.", "quantifier": "all methods obeying the discipline, all executions, call depths and operand stacks", "why_tests_cant": "The discipline is a static fact about code with loops and calls; that it suffices must hold for every execution.", "anchors": ["clr_lite/src/vm/interpreter/stack_frame.rs:StackFrame::execute", "clr_lite/src/vm/interpreter/stack_frame.rs:StackFrame::method_call"]}
{"id": "C64", "title": "Compiled structured programs behave as their source", "statement": "Executing the CIL compiled from a structured program on 32-bit integers (assignments, sequences, conditionals, loops, return) ends exactly as the source says: with the returned value and the final parameters, with a panic where the source traps or runs off its end, or never.", "quantifier": "all programs, all encodings of their instructions, all arguments, any number of loop iterations, both build profiles", "why_tests_cant": "Infinite family of programs and unbounded executions, including non-terminating ones.", "anchors": ["clr_lite/src/vm/interpreter/stack_frame.rs:StackFrame::execute", "clr_lite/src/vm/interpreter/mod.rs:Interpreter::execute"]}
{"id": "C65", "title": "Type tokens resolve to their rows", "statement": "After an assembly is loaded, a type-definition token k resolves for ever to a type with the name, namespace and abstract flag of row k of the type table, and a type-reference token k to a type with the full name that row k of the reference table gives.", "quantifier": "all well-formed metadata, all runtime histories before and after the load, both build profiles", "why_tests_cant": "All metadata and all later loads and executions.", "anchors": ["clr_lite/src/vm/reflection/assembly.rs:Assembly::load", "clr_lite/src/vm/reflection/assembly.rs:Assembly::resolve_type", "clr_lite/src/vm/reflection/type.rs:Type::load"]}
{"id": "C66", "title": "Members are found by name in their own type", "statement": "Looking up a field or method of a type by name gives the last one of that name that the type itself declares, and nothing if it declares none.", "quantifier": "all reachable runtime states, all types and names", "why_tests_cant": "All names and all histories of the runtime.", "anchors": ["clr_lite/src/vm/reflection/type.rs:Type::get_field", "clr_lite/src/vm/reflection/type.rs:Type::get_method"]}
{"id": "C67", "title": "Compiled programs with calls and output behave as their source", "statement": "Executing the CIL compiled from a program of mutually recursive static functions on 32-bit integers (assignments, conditionals, loops, calls with and without results, printing of literals) ends exactly as the source says: with the result, the final arguments and the printed text in order, with a panic where the source traps, or never. Nothing is claimed once the program exceeds the initial storage for variables, reads a variable before assigning it, or allocates 2^62 bytes of strings.", "quantifier": "all programs, all encodings of their instructions, all arguments, any recursion depth within the storage, any number of iterations, all runtime histories, both build profiles", "why_tests_cant": "Infinite family of programs and unbounded executions, including non-terminating ones.", "anchors": ["clr_lite/src/vm/interpreter/stack_frame.rs:StackFrame::execute", "clr_lite/src/vm/interpreter/mod.rs:Interpreter::execute", "clr_lite/src/vm/gc/mod.rs:GcHeap::alloc_string", "clr_lite/src/vm/internal_method/System_Console.rs"]}
{"id": "C68", "title": "Loaded types are as their rows say", "statement": "After an assembly is loaded, the type of every row of the type table has the base type, the kind (class, interface, struct, enum, array), the interfaces, the fields and the methods that the tables give to that row, in the order of the tables, and keeps them for ever. Names in the tables stand for the type registered last under that name, and when several types have the same full name only the last is given interfaces.", "quantifier": "all well-formed metadata, all runtime histories before and after the load, both build profiles", "why_tests_cant": "All metadata, any number of types and members, all later loads and executions.", "anchors": ["clr_lite/src/vm/reflection/type.rs:Type::resolve", "clr_lite/src/vm/reflection/type.rs:Type::resolve_base", "clr_lite/src/vm/reflection/type.rs:Type::resolve_kind", "clr_lite/src/vm/reflection/type.rs:Type::resolve_fields", "clr_lite/src/vm/reflection/type.rs:Type::resolve_methods", "clr_lite/src/vm/reflection/assembly.rs:Assembly::load"]}
{"id": "C69", "title": "Programs in images run as their source", "statement": "When an image that holds a compiled program (static functions on 32-bit integers that call each other and print literals, encoded in the tables, heaps and method bodies as ECMA-335 says) is loaded into a runtime whose console is loaded, the method token of each function resolves to a method, at any later time, and executing that method has exactly the outcome of the function: result, final arguments and printed text, a panic, or no end. The console is the one of the startup images if they define System.Console.Write(string) as an internal call.", "quantifier": "all programs, all images that hold them in either body format, all runtime histories before and after the load, all arguments, both build profiles", "why_tests_cant": "All programs and all layouts of images, unbounded executions, all states of the runtime.", "anchors": ["clr_lite/src/vm/reflection/assembly.rs:Assembly::load", "clr_lite/src/vm/reflection/assembly.rs:Assembly::resolve_method", "clr_lite/src/vm/mod.rs:ClrLite::new_runtime", "clr_lite/src/vm/mod.rs:ClrLite::execute"]}
{"id": "C70", "title": "The test program runs the entry point of its argument", "statement": "When the runtime starts and the image named on the command line loads, the test program does what the function that the image's header gives as entry point does: it prints the same text and ends with the same result, panics where the function does, and does not end where the function does not.", "quantifier": "all programs, all images that hold them, all startup images that load, both build profiles", "why_tests_cant": "All programs and images, and unbounded executions.", "anchors": ["test_program/src/main.rs:main", "clr_lite/src/vm/mod.rs:ClrLite::new_runtime", "clr_lite/src/vm/mod.rs:ClrLite::load_assembly_from_path", "clr_lite/src/vm/mod.rs:ClrLite::execute"]}
{"id": "C71", "title": "Well-formed images load", "statement": "Loading an image succeeds, without an error or a panic, when its tables, heaps, signatures and bodies are as ECMA-335 says (lists of fields and methods consecutive, every index in range, every type of a signature one of the built-in types, a class, a struct or a vector), the assemblies, types and methods that it refers to are in the runtime, every type it names is loaded or defined in it, and base types and struct fields form no cycle and have sizes that fit in a word. The same holds for starting a runtime with two such images, one of which defines System.Object. What is loaded leaves the types of the runtime acyclic and of bounded size, so the next image can be loaded too.", "quantifier": "all images, all runtime histories, all file systems, both build profiles", "why_tests_cant": "All images, with any number of rows, types, fields, nested structs and vectors, and all states of the runtime.", "anchors": ["clr_lite/src/vm/reflection/assembly.rs:Assembly::load", "clr_lite/src/vm/mod.rs:ClrLite::new_runtime", "clr_lite/src/vm/mod.rs:ClrLite::load_assembly_from_data", "clr_lite/src/vm/reflection/type.rs:Type::size"]}
{"id": "C72", "title": "Borrows of runtime cells do not overlap", "statement": "No operation of the runtime (starting it, loading an assembly, looking up types, fields and methods, resolving tokens, running a method, reading and writing objects) panics because a part of the runtime is borrowed mutably while it is already borrowed. In particular this holds while the embedding program holds the views that the API hands out: the assemblies and types of the runtime, the types of an assembly, the fields, methods and interfaces of a type, the parameters of a method.", "quantifier": "all operations, all types, assemblies, methods and objects they are called on, all call depths, all sets of views held by the embedding program", "why_tests_cant": "All control-flow paths through mutually recursive functions, any number of objects that may be the same or different, and any set of views held at the time of the call.", "anchors": ["clr_lite/src/vm/mod.rs:ClrLite::types", "clr_lite/src/vm/mod.rs:ClrLite::load_assembly", "clr_lite/src/vm/reflection/type.rs:Type::array_of", "clr_lite/src/vm/reflection/type.rs:Type::resolve_fields", "clr_lite/src/vm/reflection/assembly.rs:Assembly::load", "clr_lite/src/vm/interpreter/mod.rs:Interpreter::execute"]}
{"id": "C73", "title": "Executing a method has no undefined behaviour", "statement": "Whatever code the assemblies of the runtime hold and whatever numbers a static method is given, executing it gives a result, an error or a panic, or goes on forever; at no step does it read or write memory outside what it has allocated or memory that has been freed. (False of the code. It holds of every execution, finished or not, that meets none of these: more than 64 variables in use, more than 1024 bytes of objects, an instruction whose operand is cut off by the end of the code, a field accessed through an object that has no room for it or a number wider than the field, a size that does not fit in a word in a release build, and an object as the result.)", "quantifier": "all runtime histories, all method bodies, all parameters, executions of any length, finished or not, both build profiles", "why_tests_cant": "All byte strings as code and all executions, also those that never end; undefined behaviour need not show in a test.", "anchors": ["clr_lite/src/vm/mod.rs:ClrLite::execute", "clr_lite/src/vm/interpreter/mod.rs:Interpreter::execute", "clr_lite/src/vm/interpreter/stack_frame.rs:StackFrame::execute", "clr_lite/src/vm/interpreter/stack_frame.rs:StackFrame::stackalloc", "clr_lite/src/vm/gc/mod.rs:GcHeap::alloc", "clr_lite/src/vm/gc/raw_object.rs:RawObject::set"]}
{"id": "C74", "title": "Floating point arithmetic follows IEEE 754", "statement": "add, sub, mul, div and rem on two single precision or two double precision numbers give the correctly rounded result (to nearest, ties to even) with the sign, the infinities and the NaNs that IEEE 754 prescribes; the remainder is exact and has the sign of the dividend; neg flips the sign. The result is unique up to the payload of a NaN.", "quantifier": "all pairs of bit patterns of both formats, infinities, NaNs, zeros and subnormal numbers included", "why_tests_cant": "2^64 and 2^128 pairs; rounding errors show in few of them.", "anchors": ["clr_lite/src/vm/interpreter/value.rs", "clr_lite/src/vm/interpreter/stack_frame.rs:StackFrame::execute"]}
{"id": "C75", "title": "Loading has no undefined behaviour", "statement": "Starting the runtime and loading an assembly, from data, from a path or by name, with everything it refers to, never reads outside the data it was given, whatever the bytes of the files are: the outcome is a success, an error or a panic. The same holds of every part on its own: headers, metadata, tables, signatures, strings, method bodies, resources. Hence the test program that comes with the runtime has undefined behaviour only while it executes the entry point. (The alignment of the data in memory is left out.)", "quantifier": "all files and search paths, all byte strings as images, all states of the runtime, all positions in blobs, both build profiles", "why_tests_cant": "All byte strings; a read outside the data need not show in a test.", "anchors": ["clr_lite/src/vm/mod.rs:ClrLite::load_assembly", "clr_lite/src/vm/mod.rs:ClrLite::new_runtime", "clr_lite/src/vm/reflection/assembly.rs:Assembly::load", "clr_lite/src/vm/reflection/method_body.rs:MethodBody::load", "clr_lite/src/metadata/mod.rs:Metadata::read", "clr_lite/src/metadata/pe.rs:PeInfo::parse_pe", "binary_reader/src/lib.rs:BinaryReader", "test_program/src/main.rs"]}
{"id": "C76", "title": "Debug and release builds agree until an overflow", "statement": "For the same input, a release build does exactly what a debug build does: it returns the same value or error and leaves the same state behind, panics with the same message, has undefined behaviour at the same place, or goes on forever as well. The one exception is an execution in which the debug build panics because the result of an addition, a subtraction, a multiplication, a negation or a shift does not fit; the release build never panics for that reason. Hence every state that a debug build can be brought into can be reached in the same way in a release build.", "quantifier": "all byte strings as images, heaps and blobs, all files and search paths, all runtime states, all methods and parameters, executions of any length, sequences of calls of any length", "why_tests_cant": "Tests run in one profile on chosen inputs; the statement compares two builds on all inputs.", "anchors": ["clr_lite/src/metadata/pe.rs:PeInfo::parse_pe", "clr_lite/src/metadata/mod.rs:Metadata::read", "clr_lite/src/metadata/blob/mod.rs", "clr_lite/src/vm/mod.rs:ClrLite::load_assembly", "clr_lite/src/vm/mod.rs:ClrLite::execute", "clr_lite/src/vm/interpreter/value.rs", "binary_reader/src/lib.rs:BinaryReader", "test_program/src/main.rs"]}
{"id": "C77", "title": "Loading an assembly comes to an end", "statement": "Loading an assembly (from data, from a path or by name), starting a runtime, and asking for the size of a type come back after a nesting of calls that is bounded by the images involved: no image, no set of files and no state of the runtime makes them go on forever.", "quantifier": "all byte strings as images, all files and search paths, all runtime states, all types, any depth of calls", "why_tests_cant": "A test that never ends proves nothing about the inputs that were not tried, and the bound has to hold for chains of references and of types of any length.", "anchors": ["clr_lite/src/vm/reflection/assembly.rs:Assembly::load", "clr_lite/src/vm/mod.rs:ClrLite::load_assembly", "clr_lite/src/vm/mod.rs:ClrLite::new_runtime", "clr_lite/src/vm/reflection/type.rs:Type::size", "clr_lite/src/vm/reflection/type.rs:Type::instance_of"]}
{"id": "C78", "title": "Code without loops and recursion comes to an end", "statement": "In a runtime whose types extend and contain each other in some order, a call of a method comes back if some number goes down along its code and the calls it makes; in particular if the code only branches forward and calls only go to methods of lower rank, and then it comes back after a number of instructions that can be read off the sizes of the code. A method that branches to itself, or that starts by calling itself, never comes back, and there are images with such methods.", "quantifier": "all reachable runtime states, all methods, code and parameters, any number of instructions and any depth of calls", "why_tests_cant": "A test can only see that a call has not come back yet, and the bound has to hold for code of any size and calls of any depth.", "anchors": ["clr_lite/src/vm/interpreter/stack_frame.rs:StackFrame::execute", "clr_lite/src/vm/interpreter/mod.rs:Interpreter::execute", "clr_lite/src/vm/mod.rs:ClrLite::execute"]}
{"id": "C79", "title": "Numbers in memory are aligned", "statement": "The fields of objects, the elements of arrays and the code units of strings that the runtime reads and writes as numbers, and the operands of instructions that it reads as numbers, are at addresses that are multiples of their sizes, as Rust requires of such accesses.", "quantifier": "all reachable runtime states, all sequences of allocations, all addresses at which the heap and the code of a method can be", "why_tests_cant": "A test runs at the addresses that the allocator happens to return, on machines that tolerate misaligned accesses; whether any address would do is a question about all of them.", "anchors": ["clr_lite/src/vm/gc/mod.rs:GcHeap::alloc", "clr_lite/src/vm/gc/mod.rs:GcHeap::alloc_array", "clr_lite/src/vm/gc/mod.rs:GcHeap::alloc_string", "clr_lite/src/vm/gc/raw_object.rs:RawObject::get", "clr_lite/src/vm/gc/string.rs:ManagedString::data", "clr_lite/src/vm/interpreter/stack_frame.rs:StackFrame::il_get"]}
{"id": "C80", "title": "Parameters have the names and numbers of the Param table", "statement": "Each parameter of a loaded method has the name and the number of the row of the Param table that belongs to the method and carries the parameter's sequence number; a parameter without such a row has no name of its own, and a method may have fewer rows than parameters.", "quantifier": "all well-formed metadata, all runtime histories, all methods and parameters, both build profiles", "why_tests_cant": "Compilers rarely emit a row for the result or leave rows out, so the usual images do not show whether rows are found by number or by position.", "anchors": ["clr_lite/src/vm/reflection/method.rs:Method::load", "clr_lite/src/vm/reflection/parameter.rs:Parameter::name", "clr_lite/src/vm/reflection/parameter.rs:Parameter::index"]}
{"id": "C81", "title": "Texts identify what they show", "statement": "The text of a token is 0x and its eight hexadecimal digits, that of an address 0x and its digits without leading zeros, that of a type its full name, and those of fields, parameters and methods are made of the names of the types and their own; different tokens, addresses and signatures have different texts.", "quantifier": "all tokens and addresses, all reachable runtime states, all types, fields, methods and parameters", "why_tests_cant": "All numbers and all combinations of names.", "anchors": ["clr_lite/src/metadata/metadata_token.rs:Display for MetadataToken", "clr_lite/src/pe.rs:Display for Rva", "clr_lite/src/vm/reflection/type.rs:Display for Type", "clr_lite/src/vm/reflection/field.rs:Display for Field", "clr_lite/src/vm/reflection/parameter.rs:Display for Parameter", "clr_lite/src/vm/reflection/method.rs:Display for Method"]}
{"id": "C82", "title": "Type references stand for types of their scope", "statement": "A type reference whose scope is an assembly resolves to the type of that full name that this assembly defines, and one whose scope is another type to the type of that name nested in it, whatever other assemblies and types are loaded.", "quantifier": "all well-formed metadata, all runtime histories, all reference rows, both build profiles", "why_tests_cant": "Needs two loaded assemblies, or two enclosing types, that use the same name; every order of loading matters.", "anchors": ["clr_lite/src/vm/reflection/assembly.rs:Assembly::load", "clr_lite/src/vm/reflection/assembly.rs:Assembly::resolve_type", "clr_lite/src/vm/mod.rs:ClrLite::get_type"]}
{"id": "C83", "title": "Numbers are widened when loaded and narrowed when stored", "statement": "Loading a field or variable of an integer type shorter than 32 bits leaves the 32-bit number of the same value on the operand stack, ready for arithmetic with other 32-bit numbers; storing a 32-bit number in a variable of such a type keeps its lowest bits.", "quantifier": "all values, fields, variables and reachable machine states, both build profiles", "why_tests_cant": "All widths, values and instruction sequences.", "anchors": ["clr_lite/src/vm/interpreter/stack_frame.rs:StackFrame::execute", "clr_lite/src/vm/gc/raw_object.rs:RawObject::get", "clr_lite/src/vm/gc/raw_object.rs:RawObject::set", "clr_lite/src/vm/interpreter/value.rs:Value"]}
{"id": "C84", "title": "Room asked for in advance is in proportion to the input", "statement": "Decoding the metadata tables or a signature asks for room for at most as many elements as the input has bytes, whatever counts the input claims.", "quantifier": "all byte strings, all claimed counts and depths of nesting, both build profiles", "why_tests_cant": "Counts are 29 to 32 bits wide and may be nested; tests use well-formed files whose counts are right.", "anchors": ["clr_lite/src/metadata/tables/mod.rs:TableReader::read_table", "clr_lite/src/metadata/tables/mod.rs:TableReader::read", "clr_lite/src/metadata/blob/method_signature.rs:BlobReader::read_method_signature", "clr_lite/src/metadata/blob/property_signature.rs:BlobReader::read_property_signature", "clr_lite/src/metadata/blob/method_spec.rs:BlobReader::read_method_spec", "clr_lite/src/metadata/blob/element_type.rs:BlobReader::read_element_type", "clr_lite/src/metadata/blob/array_shape.rs:BlobReader::read_array_shape"]}
{"id": "C85", "title": "References are compared by identity", "statement": "ceq and beq find two references equal exactly when they are to the same object, references from different allocations are never equal, two ldstr instructions with the same text give the same object, and brtrue and brfalse take a reference for true unless it is null.", "quantifier": "all heaps and references into them, all histories of allocations, all literals, both build profiles", "why_tests_cant": "Whether two references are equal depends on every allocation made before; a test compares a handful.", "anchors": ["clr_lite/src/vm/interpreter/value.rs:Value", "clr_lite/src/vm/interpreter/value.rs:Value::is_null_or_zero", "clr_lite/src/vm/gc/object.rs:Object", "clr_lite/src/vm/gc/mod.rs:GcHeap::alloc_string", "clr_lite/src/vm/interpreter/mod.rs:Interpreter::execute"]}
{"id": "C86", "title": "Operands of the same size work together whatever their declared types", "statement": "The operand stack has integers of 32 and of 64 bits: comparing, adding or otherwise combining two of the same size works whatever integer types they were loaded from, a local that has not been assigned equals the constant zero, and 32- and 64-bit numbers are shifted by 32-bit counts.", "quantifier": "all pairs of integer types, all values, all operators, both build profiles", "why_tests_cant": "There are 56 pairs of different types for each of some thirty instructions; compiled test programs use int nearly everywhere.", "anchors": ["clr_lite/src/vm/interpreter/value.rs:Value::partial_cmp", "clr_lite/src/vm/interpreter/value.rs:Value::add", "clr_lite/src/vm/interpreter/value.rs:Value::shl", "clr_lite/src/vm/interpreter/value.rs:Value::shr", "clr_lite/src/vm/interpreter/mod.rs:Interpreter::execute"]}
{"id": "C87", "title": "What is read from an image is aligned", "statement": "Every number and structure that the readers of the PE and CLI headers, the metadata root, the metadata tables, compressed numbers, user strings and method bodies take from the image is at an address that is a multiple of its alignment, as the unsafe reads of the binary reader require.", "quantifier": "all images, all addresses of the image in memory, all tables, index widths and numbers of rows, all literals, all method bodies and exception clauses, both build profiles", "why_tests_cant": "A misaligned access works on the usual machines; only the combination of the address of the image, the offsets chosen by the compiler that made it and the widths of all columns before decides.", "anchors": ["binary_reader/src/lib.rs:BinaryReader::peek", "binary_reader/src/lib.rs:BinaryReader::read", "binary_reader/src/lib.rs:BinaryReader::read_array", "clr_lite/src/pe.rs:PeInfo::parse", "clr_lite/src/metadata/tables/mod.rs:TableReader::read", "clr_lite/src/metadata/blob/blob_reader.rs:BlobReader::read_compressed_u32", "clr_lite/src/metadata/blob/blob_reader.rs:BlobReader::read_utf16_str", "clr_lite/src/vm/reflection/assembly.rs:Assembly::get_string", "clr_lite/src/metadata/mod.rs:Metadata::read", "clr_lite/src/vm/reflection/method_body.rs:MethodBody::load"]}
{"id": "C88", "title": "Reading a truth value or a character is defined whatever the bytes are", "statement": "The binary reader can be asked for a truth value or a character in any buffer: whatever the bytes at the cursor are, the read returns a value or nothing.", "quantifier": "all buffers, all positions, all addresses, both build profiles", "why_tests_cant": "A bad byte gives a value that seems to work until it is matched on; which of the 2^32 words are characters cannot be enumerated with positions and addresses.", "anchors": ["binary_reader/src/lib.rs:BinaryReader::peek", "binary_reader/src/lib.rs:BinaryReader::read", "binary_reader/src/lib.rs:CopyFromBytes"]}
{"id": "C89", "title": "What an object is never changes", "statement": "Between any two points of an execution, a reference that the program could use at the first one still refers, at the second one, to the same thing: an object keeps its type, an array the type of its elements and its length, and a string its text; nothing is removed from the heap. Every reference that the program can use is to an object, an array or a string. (False of the code: a store of an int to a field of type short at the end of an object overwrites the header of what lies behind it. It holds of every execution, finished or not, that starts with numbers and meets none of the hazards of C73.)", "quantifier": "all runtime histories, all method bodies and parameters that are numbers, all pairs of points of executions of any length, finished or not, including points inside calls and after them, all references, both build profiles", "why_tests_cant": "All pairs of points of all executions of all programs; a header that has been overwritten shows only when the object is used.", "anchors": ["clr_lite/src/vm/gc/raw_object.rs:RawObject::set", "clr_lite/src/vm/gc/array.rs", "clr_lite/src/vm/gc/string.rs", "clr_lite/src/vm/gc/mod.rs:GcHeap::alloc", "clr_lite/src/vm/interpreter/stack_frame.rs:StackFrame::execute"]}
{"id": "C90", "title": "Instructions are recognised as CIL defines them", "statement": "Whatever bytes the code of a method holds at the instruction pointer: if they are an instruction of CIL, the interpreter takes them for that instruction, and when it does not support it, it returns an error with the instruction's mnemonic, leaving all else as it was; if they are no instruction, or there are none left, it returns an error. (False of the code: bytes that are no instruction, the end of the code, and the prefix no., which it does not know, end the process; the byte 0xf8 alone is reported as an instruction Prefix7.)", "quantifier": "all 219 instructions of ECMA-335 III and all other bytes, all frames, positions and states, both build profiles", "why_tests_cant": "Every instruction at every place of every state; a pair of names or numbers exchanged in the table shows only for the one instruction, which no compiled test program contains.", "anchors": ["clr_lite/src/vm/interpreter/opcodes.rs:Opcodes", "clr_lite/src/vm/interpreter/stack_frame.rs:StackFrame::get_opcode", "clr_lite/src/vm/interpreter/stack_frame.rs:StackFrame::execute"]}
{"id": "C91", "title": "Only stores change the heap", "statement": "Between any two points of any execution, a byte of the heap changes only if a stfld or a stelem.i4 executed in between, calls included, stores to it; creating objects, arrays and strings, growing the heap, calling methods and writing to the console change no byte that was there, and the heap never gets shorter. In executions without the hazards of C73, a field of an object keeps its value unless stfld stores to overlapping bytes by a reference to this very object, and an element of an array of Int32 keeps its value unless stelem.i4 stores to this index by a reference to this very array: stores to other objects and arrays never show.", "quantifier": "all executions of all methods of all loaded programs, all pairs of points of them, all ways between these, all objects, fields, arrays and indices, both build profiles; also when the heap moves or a size wraps around", "why_tests_cant": "Speaks of everything that does not change, at every point of every execution of every program, whatever happens in between.", "anchors": ["clr_lite/src/vm/interpreter/stack_frame.rs:StackFrame::execute", "clr_lite/src/vm/gc/mod.rs:GcHeap::alloc", "clr_lite/src/vm/gc/mod.rs:GcHeap::ensure_size", "clr_lite/src/vm/gc/raw_object.rs:RawObject::set", "clr_lite/src/vm/gc/array.rs:Array::as_mut_slice"]}
{"id": "C92", "title": "Executing a method again gives the same result", "statement": "Once execute has come back from a method with certain arguments, executing the method again with the same arguments returns the same result or error, leaves the same values in the host's parameters and appends the same text to the output, whatever executions of other methods (ending with a result or with an error) and requests for array types have taken place in between; also when further assemblies have been loaded in between, unless they define types that have the names of array types or of types of the class library that were there. The second time nothing but the output changes: no type is created and no type id is used. An execution that creates no array type is not affected by executions before it either. Executions never change assemblies, existing types or the names these are found by.", "quantifier": "all methods, arguments and states of the runtime, all sequences of executions and loads in between, both build profiles", "why_tests_cant": "Speaks of all programs and of all that can be executed between two executions of one of them; a test repeats a few programs a few times.", "anchors": ["clr_lite/src/vm/mod.rs:ClrLite::execute", "clr_lite/src/vm/reflection/type.rs:Type::get_or_create_array_type", "clr_lite/src/vm/interpreter/mod.rs:Interpreter::new"]}
{"id": "C93", "title": "Error messages of an execution say what went wrong and where", "statement": "When an execution ends with an error, the message is that of the last instruction executed, and says what is wrong with it: for an instruction that is not supported, its name and its offset in the code (hexadecimal, at least four digits); for a token that stands for no method or literal, the token (and the assembly); for a field access on something that is no object, or an element access on something that is no array, which kind of access and the value with its kind; for an array of another element type, the name of that type and of the expected one. A message is given exactly when the instruction fails. Asked to execute an instance method, execute names the type and the method.", "quantifier": "all methods, arguments, states of the runtime and of the interpreter, all instructions and operands, both build profiles", "why_tests_cant": "Speaks of every way in which any instruction can fail in any program; a test provokes a few messages.", "anchors": ["clr_lite/src/vm/interpreter/stack_frame.rs:StackFrame::execute", "clr_lite/src/vm/interpreter/stack_frame.rs:StackFrame::method_call", "clr_lite/src/vm/interpreter/value.rs:Value", "clr_lite/src/vm/mod.rs:ClrLite::execute"]}
{"id": "C94", "title": "The errors of a load name what is missing and who refers to it", "statement": "Loading an assembly goes through the assemblies, methods and types that its image refers to, in this order. If something among them is not there, the load fails with a message that names the first such thing: an assembly of which there is no file (\"Could not locate assembly with name N\"), a type (\"Cannot find type N referenced by A\"), a method of a type that is there (\"Unable to find T.M referenced by A\"), or an assembly or method whose name cannot be read (\"A contains invalid assembly references\", \"Unable to load methods referenced by A\"). A is the assembly whose image has the reference: if an assembly that is loaded for a reference itself lacks something, the message is about that. Conversely, one of these messages is given only if what it names is really not there, and loads that succeed lack nothing.", "quantifier": "all histories of the runtime, all images, file systems and search paths, chains of references of every length, both build profiles", "why_tests_cant": "Both directions speak of every image and every set of loaded assemblies and files; a test provokes single messages.", "anchors": ["clr_lite/src/vm/reflection/assembly.rs:Assembly::load", "clr_lite/src/vm/mod.rs:ClrLite::load_assembly"]}
{"id": "C95", "title": "Assemblies are loaded under the names of their images and stay loaded, and so do those they refer to", "statement": "An image that is loaded successfully gives an assembly that is listed among the loaded ones and has the name that the image gives it. From then on an assembly of that name stays loaded, whatever is loaded or executed afterwards, and also when later loads fail. In particular the two assemblies with which the runtime is started are loaded at all times. After the load of an image, every assembly that the image refers to is loaded under the name of the reference. If they were all loaded before, the load adds one assembly to the list of loaded ones and nothing else.", "quantifier": "all images, file systems and search paths, all states of the runtime (for the references: all histories), chains of references of every length, both build profiles", "why_tests_cant": "Speaks of every image, disk and history; a test loads a few images from a few disks, with files that have the names of their assemblies.", "anchors": ["clr_lite/src/vm/reflection/assembly.rs:Assembly::load", "clr_lite/src/vm/mod.rs:ClrLite::load_assembly", "clr_lite/src/vm/mod.rs:ClrLite::resolve_assembly_name"]}
{"id": "C96", "title": "Loads and runs depend on no files but those that are found for assembly names", "statement": "For an assembly name, the file that counts is the first one that exists among directory/name.dll and directory/name.exe, in the order of the search directories. Two disks that agree on these files are not distinguishable: loading an image or an assembly by name gives the same result and leaves the runtime in the same state, whether it succeeds, fails or panics, and so do the start of the runtime and, if the disks also agree on the file to be run, the whole run of the test program. In particular files in other directories, files with other endings, and files for a name that has one earlier in the search order have no influence. Nothing is read from the disk if all that an image refers to is loaded.", "quantifier": "all pairs of disks, all images, names, search paths and histories of the runtime, chains of references of every length, both build profiles", "why_tests_cant": "It compares the behaviour on every pair of disks; a test has a few files in a few directories.", "anchors": ["clr_lite/src/vm/mod.rs:ClrLite::resolve_assembly_name", "clr_lite/src/vm/mod.rs:ClrLite::load_assembly", "clr_lite/src/vm/reflection/assembly.rs:Assembly::load", "test_program/src/main.rs:main"]}
