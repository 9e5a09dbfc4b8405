{"id": "C01", "title": "parse_class accepts exactly the class-file format and returns exactly what the bytes say", "statement": "parse_class(bytes) returns Ok(class) if and only if bytes is, from the first to the last byte, a class file of the (independently written) grammar, and then every public field of class (versions, flags, names, fields, methods, attributes, bytecode, constant pool) is the value the grammar assigns to those bytes. Deviations of the code from the JVM specification appear in the grammar as named quirk rules.", "quantifier": "every byte sequence, every ParseOptions, both overflow-check modes", "why_tests_cant": "infinitely many inputs; tests compare a handful of javac outputs only for is_ok()", "anchors": ["src/lib.rs: parse_class_with_options", "src/lib.rs: parse_class", "src/attributes.rs: read_attributes", "src/bytecode.rs: ByteCode::from", "src/constant_pool.rs: read_constant_pool"]}
{"id": "C02", "title": "No input makes the parser panic or abort", "statement": "For every byte sequence and every options value parse_class_with_options returns Ok or Err; it never panics, overflows the stack or aborts.", "quantifier": "every byte sequence, every options value, debug and release arithmetic", "why_tests_cant": "panics hide in rare combinations of entries that no sample file contains", "anchors": ["src/constant_pool.rs: ConstantPoolEntry::utf8", "src/constant_pool.rs: ConstantPoolEntry::validate", "src/constant_pool.rs: validate_method_descriptor", "src/constant_pool.rs: read_cp_nameandtype_opt", "src/constant_pool.rs: read_constant_pool", "src/bytecode.rs: validate_jump", "src/bytecode.rs: read_opcodes"]}
{"id": "C03", "title": "Every loop of the parser terminates", "statement": "For every input each loop of the parser without a fixed iteration count (constant pool, names, descriptors, opcodes, switch tables, binary search, constant-pool iteration) stops after at most one iteration more than the length of the data it works on, and so the parse ends.", "quantifier": "every byte sequence", "why_tests_cant": "non-termination cannot be observed by finite tests", "anchors": ["src/constant_pool.rs: read_constant_pool", "src/bytecode.rs: read_opcodes", "src/bytecode.rs: get_opcode_index", "src/descriptors.rs: ClassName::try_from", "src/descriptors.rs: parse_class_descriptor", "src/descriptors.rs: parse_method_descriptor"]}
{"id": "C04", "title": "Constant-pool validation uses bounded stack on every constant pool", "statement": "Checking the descriptor of a Methodref, InterfaceMethodref or InvokeDynamic entry finishes for every constant pool, including ones whose entries reference each other in cycles.", "quantifier": "every constant pool, every stack size", "why_tests_cant": "needs an adversarial cyclic pool; the recursion depth is unbounded only for such a pool", "anchors": ["src/constant_pool.rs: validate_method_descriptor", "src/constant_pool.rs: validate_constant_pool", "src/constant_pool.rs: ConstantPoolRef::resolve"]}
{"id": "C05", "title": "Truncated or extended files are never accepted", "statement": "If parse_class accepts a file then it accepts no proper prefix of it and no file obtained by appending one or more bytes to it.", "quantifier": "every accepted file, every cut point, every non-empty suffix", "why_tests_cant": "every cut point of every file would have to be tried", "anchors": ["src/lib.rs: parse_class_with_options", "src/lib.rs: read_u1", "src/lib.rs: read_u2", "src/lib.rs: read_u4"]}
{"id": "C06", "title": "ParseOptions::parse_bytecode(false) changes nothing but the bytecode field", "statement": "If parsing with bytecode enabled succeeds then parsing with it disabled succeeds with an equal class except that every CodeData.bytecode is None (and it is Some in the enabled run, in every Code attribute at any nesting); if parsing with it disabled fails then parsing with it enabled fails too.", "quantifier": "every byte sequence", "why_tests_cant": "relates two executions on every input", "anchors": ["src/lib.rs: ParseOptions::parse_bytecode", "src/lib.rs: ParseOptions::default", "src/lib.rs: parse_class", "src/attributes.rs: read_code_data"]}
{"id": "C07", "title": "Header: magic number and versions", "statement": "A file whose first four bytes are not CA FE BA BE is rejected; in an accepted file minor_version and major_version are the big-endian values of bytes 4-5 and 6-7.", "quantifier": "every byte sequence", "why_tests_cant": "all 2^64 headers", "anchors": ["src/lib.rs: parse_class_with_options", "src/lib.rs: read_u4", "src/lib.rs: read_u2"]}
{"id": "C08", "title": "Constant-pool slot numbering and version gating", "statement": "In an accepted file entry tags 15, 16, 18 occur only from major version 51, 19 and 20 only from 53, 17 only from 55, and no other tags than the specified ones occur; Long and Double take two indices, so that an index always denotes the entry the specification assigns to it, and the pool has exactly constant_pool_count slots.", "quantifier": "every accepted file", "why_tests_cant": "depends on the position of every wide constant in pools of up to 65535 entries", "anchors": ["src/constant_pool.rs: read_constant_pool"]}
{"id": "C09", "title": "Constant-pool references are well-kinded", "statement": "In an accepted file every constant-pool reference is in bounds, is not a self reference and denotes an entry of the kind the referring entry requires, with contents valid for its role (class name, unqualified name, field or method descriptor, module name, package name; method-handle kind versus member kind including the version-52 rule). A pool with any other reference is rejected.", "quantifier": "every byte sequence, every reference in it", "why_tests_cant": "all combinations of referring and referred kinds, versions and strings", "anchors": ["src/constant_pool.rs: ConstantPoolEntry::resolve", "src/constant_pool.rs: ConstantPoolEntry::validate", "src/constant_pool.rs: ensure_type"]}
{"id": "C10", "title": "constantpool_iter yields each visible entry once, in pool order", "statement": "For an accepted class, repeatedly calling next on constantpool_iter() yields, in increasing pool index, exactly one item per entry that is not a Utf8 or an unusable slot, each with the strings obtained by following its references, then None forever.", "quantifier": "every accepted file, every number of calls", "why_tests_cant": "unbounded pools and call histories", "anchors": ["src/constant_pool.rs: ConstantPoolIter::next", "src/lib.rs: ClassFile::constantpool_iter"]}
{"id": "C11", "title": "constantpool_iter never panics", "statement": "Iterating the constant pool of any accepted class to the end never panics.", "quantifier": "every accepted file, every number of calls", "why_tests_cant": "requires an undecodable string in an unusual position", "anchors": ["src/constant_pool.rs: ConstantPoolIter::next", "src/constant_pool.rs: ConstantPoolEntry::utf8", "src/constant_pool.rs: make_method_handle"]}
{"id": "C12", "title": "Strings handed out through the pool are valid for their role", "statement": "For an accepted class every FieldRef item has a valid field descriptor, every MethodRef, InterfaceMethodRef, InvokeDynamic and MethodType item a valid method descriptor, every ClassInfo item a binary name or an array descriptor, every PackageInfo a binary name, every ModuleInfo a module name, every Dynamic a field descriptor, and a MethodHandle's member kind is one its reference kind allows.", "quantifier": "every accepted file, every item", "why_tests_cant": "all strings", "anchors": ["src/constant_pool.rs: ConstantPoolEntry::validate", "src/constant_pool.rs: ConstantPoolIter::next"]}
{"id": "C13", "title": "Field-descriptor recognition equals the grammar", "statement": "A string is recognised as a field descriptor iff it is generated by the grammar: 0 to 255 '[' followed by one of BCDFIJSZ or by L, a slash-separated list of non-empty segments without . ; [ / < >, and ';'. The prefix parser returns d on s iff s starts with the text of d.", "quantifier": "every string", "why_tests_cant": "infinitely many strings, including multi-byte characters where byte and character indices differ", "anchors": ["src/descriptors.rs: parse_field_descriptor", "src/descriptors.rs: parse_class_descriptor", "src/descriptors.rs: is_field_descriptor", "src/descriptors.rs: is_array_descriptor", "src/descriptors.rs: FieldDescriptor::byte_len"]}
{"id": "C14", "title": "Method-descriptor recognition equals the grammar", "statement": "A string is recognised as a method descriptor iff it is '(' followed by zero or more field descriptors, ')', and a field descriptor or V; the parsed value lists exactly these parameters and this return type.", "quantifier": "every string", "why_tests_cant": "unbounded parameter lists and names", "anchors": ["src/descriptors.rs: parse_method_descriptor", "src/descriptors.rs: parse_return_descriptor", "src/descriptors.rs: is_method_descriptor", "src/descriptors.rs: is_return_descriptor"]}
{"id": "C15", "title": "Descriptor Display round-trips", "statement": "Formatting any parsed descriptor yields a string that parses to the same descriptor, and formatting a descriptor parsed from a string recognised as a whole yields that string back.", "quantifier": "every descriptor and every string", "why_tests_cant": "round-trip over an infinite domain", "anchors": ["src/descriptors.rs: Display for FieldDescriptor", "src/descriptors.rs: Display for MethodDescriptor", "src/descriptors.rs: byte_len"]}
{"id": "C16", "title": "Accepted member descriptors consume the whole descriptor string", "statement": "In an accepted class the descriptor of every field, method, record component and local variable, formatted, equals the descriptor string stored in the constant pool.", "quantifier": "every accepted file", "why_tests_cant": "needs descriptor strings with trailing text, which compilers never emit", "anchors": ["src/lib.rs: read_fields", "src/lib.rs: read_methods", "src/attributes.rs: read_localvariable_data", "src/attributes.rs: read_record_data", "src/descriptors.rs: parse_field_descriptor"]}
{"id": "C17", "title": "this_class, super_class and interfaces are binary class names", "statement": "In an accepted class this_class, super_class (if present) and every interface is a slash-separated list of non-empty segments without . ; [ / < > characters, equal to the string in the constant pool; super_class is None exactly when its index is 0.", "quantifier": "every accepted file", "why_tests_cant": "all names", "anchors": ["src/lib.rs: parse_class_with_options", "src/lib.rs: read_interfaces", "src/descriptors.rs: ClassName::try_from"]}
{"id": "C18", "title": "ClassName::try_from accepts exactly binary class names", "statement": "ClassName::try_from(s) is Ok iff s is a non-empty slash-separated list of non-empty segments without . ; [ / < > characters (the type is documented as 'a valid binary class or interface name').", "quantifier": "every string", "why_tests_cant": "infinitely many strings", "anchors": ["src/descriptors.rs: ClassName::try_from", "src/descriptors.rs: parse_unqualified_segment"]}
{"id": "C19", "title": "Fields are unique and properly named", "statement": "In an accepted class no two fields have the same name and descriptor, every field name is a non-empty string without . ; [ /, and duplicates or bad names are rejected wherever they occur.", "quantifier": "every accepted file, every pair of fields", "why_tests_cant": "quadratically many pairs in unbounded tables", "anchors": ["src/lib.rs: read_fields", "src/names.rs: is_unqualified_name"]}
{"id": "C20", "title": "Methods are unique and obey the <init>/<clinit> rules", "statement": "In an accepted class no two methods have the same name and descriptor; every method name is <init> (only in classes, returning void), <clinit> (returning void, without parameters from version 51) or a non-empty string without . ; [ / < >.", "quantifier": "every accepted file", "why_tests_cant": "interaction of names, flags, versions and descriptors", "anchors": ["src/lib.rs: read_methods", "src/names.rs: is_unqualified_method_name"]}
{"id": "C21", "title": "Module files have nothing but module flags and attributes", "statement": "If an accepted class has the MODULE flag then its major version is at least 53, no other class flag is set, it has no super class, interfaces, fields or methods.", "quantifier": "every accepted file", "why_tests_cant": "all flag and table combinations", "anchors": ["src/lib.rs: parse_class_with_options"]}
{"id": "C22", "title": "Bootstrap-method indices are valid", "statement": "If the constant pool of an accepted class contains a Dynamic or InvokeDynamic entry then the class has exactly one BootstrapMethods attribute and every such entry's index is within it.", "quantifier": "every accepted file", "why_tests_cant": "relates every pool entry to every attribute", "anchors": ["src/lib.rs: validate_bootstrap_methods"]}
{"id": "C23", "title": "Attribute framing", "statement": "In an accepted class every attribute occupies exactly the 6 + attribute_length bytes it declares, at any nesting depth; fixed-size attributes have their specified length; SourceDebugExtension and unknown attributes are exactly their payload bytes.", "quantifier": "every accepted file, every attribute at every depth", "why_tests_cant": "nesting depth and lengths are unbounded", "anchors": ["src/attributes.rs: read_attributes", "src/attributes.rs: ensure_length"]}
{"id": "C24", "title": "Unknown attributes are transparent", "statement": "Inserting an attribute with an unrecognised name and arbitrary payload anywhere in an attribute list leaves the parsed values of all other attributes unchanged and adds exactly one raw entry at that position.", "quantifier": "every attribute list, position and payload", "why_tests_cant": "relates two runs over all inputs", "anchors": ["src/attributes.rs: read_attributes"]}
{"id": "C25", "title": "Bytecode offsets tile the code array", "statement": "In every parsed ByteCode the opcode offsets start at 0, are strictly increasing, lie inside the code array, and each instruction ends where the next begins, the last at the end of the code; an empty code array gives no opcodes.", "quantifier": "every code array", "why_tests_cant": "all instruction sequences, including alignment padding at every offset", "anchors": ["src/bytecode.rs: read_opcodes", "src/bytecode.rs: ByteCode::opcodes"]}
{"id": "C26", "title": "get_opcode_index is exact", "statement": "On every parsed ByteCode and every offset, get_opcode_index returns Some(i) iff opcodes[i] has that offset, and None iff none has.", "quantifier": "every parsed bytecode and every offset", "why_tests_cant": "binary search over unbounded tables", "anchors": ["src/bytecode.rs: ByteCode::get_opcode_index"]}
{"id": "C27", "title": "Jump targets are instruction starts", "statement": "In an accepted class with bytecode parsing on, for every jump, subroutine call and switch, instruction offset + jump offset is the offset of some opcode of the same method.", "quantifier": "every accepted file, every jump", "why_tests_cant": "all control-flow graphs", "anchors": ["src/bytecode.rs: validate_jump", "src/bytecode.rs: validate_opcode_jumps", "src/bytecode.rs: validate_jumps"]}
{"id": "C28", "title": "Switch tables are complete", "statement": "A parsed tableswitch has low <= high and exactly high - low + 1 jumps; a parsed lookupswitch has exactly as many pairs as it declares.", "quantifier": "every code array", "why_tests_cant": "the full i32 range of low and high", "anchors": ["src/bytecode.rs: read_opcodes"]}
{"id": "C29", "title": "Instruction operands are decoded with the right width and sign", "statement": "Each instruction decodes to the opcode of the JVM table; local indices are zero-extended from one byte, two bytes after wide; immediate and branch operands are sign-extended; short forms (xload_n, xstore_n) equal the general form with index n; unassigned opcode bytes and illegal wide operands are rejected.", "quantifier": "all 256 opcode bytes and all operand values", "why_tests_cant": "2^32 operand values per instruction", "anchors": ["src/bytecode.rs: read_opcodes"]}
{"id": "C30", "title": "Member references in instructions have the right kind", "statement": "getfield/putfield/getstatic/putstatic resolve to Fieldref entries only, invokevirtual to Methodref, invokespecial/invokestatic to Methodref or InterfaceMethodref, invokeinterface to InterfaceMethodref with a zero fourth byte, invokedynamic to InvokeDynamic with two zero bytes, ldc forms only to loadable constants.", "quantifier": "every code array and constant pool", "why_tests_cant": "all kinds and positions", "anchors": ["src/bytecode.rs: read_opcodes", "src/constant_pool.rs: read_cp_memberref", "src/constant_pool.rs: read_cp_invokedynamic", "src/constant_pool.rs: get_cp_loadable"]}
{"id": "C31", "title": "Access flags are bit-exact", "statement": "For class, field, method and inner-class flags a named flag is reported iff its bit is set in the file and unnamed bits are dropped; for method-parameter, module, requires, exports and opens flags a file with an unnamed bit is rejected and otherwise the value is exact.", "quantifier": "all 65536 flag words in each position", "why_tests_cant": "2^16 words in every position of every file", "anchors": ["src/lib.rs: ClassAccessFlags", "src/lib.rs: FieldAccessFlags", "src/lib.rs: MethodAccessFlags", "src/attributes.rs: InnerClassAccessFlags", "src/attributes.rs: MethodParameterAccessFlags", "src/attributes.rs: ModuleAccessFlags", "src/attributes.rs: ModuleRequiresFlags", "src/attributes.rs: ModuleExportsFlags", "src/attributes.rs: ModuleOpensFlags"]}
{"id": "C32", "title": "Numbers are decoded big-endian without loss", "statement": "u1/u2/u4/u8 quantities equal the big-endian value of their bytes; Integer and Long constants are the two's-complement reading, Float and Double keep the exact bit pattern; every value is reachable from exactly one byte string.", "quantifier": "all byte strings of length 1, 2, 4, 8", "why_tests_cant": "2^64 values", "anchors": ["src/lib.rs: read_u1", "src/lib.rs: read_u2", "src/lib.rs: read_u4", "src/lib.rs: read_u8", "src/constant_pool.rs: read_constant_integer", "src/constant_pool.rs: read_constant_long", "src/constant_pool.rs: read_constant_float", "src/constant_pool.rs: read_constant_double"]}
{"id": "C33", "title": "Modified-UTF-8 strings decode to the intended text", "statement": "For every Unicode string, the Java modified-UTF-8 encoding of it stored in the class file is reported as exactly that string (also for NUL and supplementary characters); decoding yields only Unicode scalar values.", "quantifier": "every Unicode string", "why_tests_cant": "infinitely many strings", "anchors": ["src/constant_pool.rs: read_constant_utf8", "src/attributes.rs: read_attributes (SourceDebugExtension)"]}
{"id": "C34", "title": "Undecodable strings surface only as StringBytes of String constants", "statement": "A Utf8 entry whose bytes cannot be decoded never appears as any name, descriptor or string of the parsed class; it is delivered unchanged as LiteralConstant::StringBytes for String constants and makes the parse fail everywhere else.", "quantifier": "every byte sequence", "why_tests_cant": "all positions where a string can be referenced", "anchors": ["src/constant_pool.rs: read_constant_utf8", "src/constant_pool.rs: ConstantPoolEntry::str", "src/constant_pool.rs: string_literal", "src/constant_pool.rs: read_cp_utf8"]}
{"id": "C35", "title": "StackMapTable frames decode per frame type", "statement": "Each frame tag maps to its frame kind and offset delta (0-63 same, 64-127 one stack item with delta tag-64, 247, 248-250 chop of 251-tag, 251, 252-254 append of tag-251 locals, 255 full); reserved tags 128-246 are rejected; verification tags 0-8 map to their types and others are rejected.", "quantifier": "all frame tags, all tables", "why_tests_cant": "256 tags times unbounded tables", "anchors": ["src/attributes.rs: read_stackmaptable_data", "src/attributes.rs: read_stackmaptable_verification"]}
{"id": "C36", "title": "Nesting depth is bounded by the input length and by nothing else", "statement": "The recursion of the parser over nested attributes and annotation values is never deeper than the input is long: with a stack of that many levels, more stack changes nothing. Conversely nothing smaller bounds it: for every depth n (up to the 2^32 bytes an attribute can have) some file of 3n+60 bytes is accepted by machines whose stack has n+2 levels and overflows every smaller stack.", "quantifier": "every byte sequence and every stack size", "why_tests_cant": "unbounded depth", "anchors": ["src/attributes.rs: read_annotation_element_value", "src/attributes.rs: read_annotation", "src/attributes.rs: read_attributes", "src/attributes.rs: read_code_data"]}
{"id": "C37", "title": "Error text lists message and contexts innermost first", "statement": "Display of a ParseError is the message, followed by ' for ' and the innermost context, then ' of ' and each further context outwards; adding a context never changes the earlier text.", "quantifier": "every error, every number of contexts", "why_tests_cant": "unbounded context lists", "anchors": ["src/error.rs: ParseError", "src/error.rs: Display for ParseError", "src/error.rs: with_context"]}
{"id": "C38", "title": "Concurrent use of a parsed class cannot deadlock", "statement": "With the threadsafe feature, any number of threads iterating the constant pool of an accepted class concurrently never deadlock, whatever the schedule, and each sees the same items.", "quantifier": "every accepted file, every number of threads, every schedule", "why_tests_cant": "schedules cannot be enumerated by tests", "anchors": ["src/constant_pool.rs: peel!", "src/constant_pool.rs: CafeCellDeref", "src/constant_pool.rs: ConstantPoolIter::next", "src/lib.rs: CafeRc"]}
{"id": "C39", "title": "Memory requested up front is bounded by the input", "statement": "The parser never requests a buffer larger than a fixed multiple of the input length plus a constant.", "quantifier": "every byte sequence", "why_tests_cant": "needs adversarial counts", "anchors": ["src/bytecode.rs: read_opcodes (tableswitch, lookupswitch)"]}
{"id": "C40", "title": "The parser is safe on 32-bit targets", "statement": "On a 32-bit target, as on 64-bit ones, attribute and code lengths never make an index computation overflow.", "quantifier": "every byte sequence, 32-bit usize", "why_tests_cant": "tests run on 64-bit hosts", "anchors": ["src/attributes.rs: read_attributes", "src/attributes.rs: read_code_data"]}
{"id": "C41", "title": "Result size is bounded by the input length", "statement": "The total number of values in an accepted class (pool slots, members, attributes, annotations, instructions, table rows) is at most the number of input bytes.", "quantifier": "every accepted file", "why_tests_cant": "unbounded structures", "anchors": ["src/lib.rs: parse_class_with_options"]}
{"id": "C42", "title": "Results do not depend on stack size, memory or build mode", "statement": "If two machines differ only in that the second has at least as much stack and memory, and possibly no arithmetic overflow checks, then a class or an error obtained on the first is obtained on the second too; only a panic for what the first one lacks (stack, memory, overflow) can differ.", "quantifier": "every byte sequence, every options value, every pair of machines", "why_tests_cant": "tests run one build on one machine", "anchors": ["src/lib.rs: parse_class_with_options", "src/bytecode.rs: read_opcodes", "src/bytecode.rs: validate_jump", "src/attributes.rs: read_attributes", "src/attributes.rs: read_annotation_element_value"]}
{"id": "C43", "title": "All memory of a class is released", "statement": "When a parsed class is dropped, and when parse_class returns an error, every entry of the constant pool is freed, each exactly once.", "quantifier": "every byte sequence (accepted or rejected at any point) and every pool", "why_tests_cant": "leaks of reference cycles are invisible to unit tests; needs all reference graphs", "anchors": ["src/constant_pool.rs: ConstantPoolRef", "src/constant_pool.rs: ConstantPoolRef::resolve", "src/constant_pool.rs: resolve_constant_pool", "src/constant_pool.rs: read_constant_pool", "src/lib.rs: CafeRc", "src/lib.rs: ClassFile"]}
{"id": "C44", "title": "Releasing memory needs a fixed amount of stack", "statement": "Dropping a parsed class, and dropping the constant pool of a rejected file, recurses through reference-counted pointers to a bounded depth (four entries), whatever the size of the file.", "quantifier": "every byte sequence", "why_tests_cant": "needs adversarial files with tens of thousands of chained constants", "anchors": ["src/constant_pool.rs: ConstantPoolRef", "src/constant_pool.rs: resolve_constant_pool", "src/constant_pool.rs: validate_constant_pool", "src/lib.rs: CafeRc"]}
{"id": "C45", "title": "The threadsafe feature does not change what parsing returns", "statement": "Parsing with the threadsafe feature, where every reference between constants is behind a mutex, returns the same class or the same error as without it, and never waits for a lock it holds itself.", "quantifier": "every byte sequence, every options value, every machine", "why_tests_cant": "needs all reference graphs; the test suite runs one feature set", "anchors": ["src/constant_pool.rs: peel!", "src/constant_pool.rs: CafeCellDeref", "src/constant_pool.rs: validate_constant_pool", "src/constant_pool.rs: ConstantPoolEntry::validate", "src/constant_pool.rs: validate_method_descriptor", "src/constant_pool.rs: make_method_handle", "src/constant_pool.rs: read_cp_memberref", "src/lib.rs: CafeRc", "src/lib.rs: parse_class_with_options"]}
{"id": "C46", "title": "Looking up an instruction takes logarithmically many steps", "statement": "get_opcode_index on n > 0 instructions inspects at most 1 + ceil(log2 n) of them, for every bytecode value (sorted or not) and every offset.", "quantifier": "every ByteCode value, every offset", "why_tests_cant": "unbounded sizes; running time is not observable in unit tests", "anchors": ["src/bytecode.rs: ByteCode::get_opcode_index"]}
{"id": "C47", "title": "Errors about constants name the first constant at fault", "statement": "If the table of constants is complete but a constant refers to itself or beyond the table, the error names the first such constant and its first such reference. If all references are in range but a constant is invalid, the error names the index of the first invalid constant (constants whose only fault is in the NameAndType they refer to are passed over in favour of that NameAndType).", "quantifier": "every byte sequence with a complete constant table", "why_tests_cant": "unbounded tables and combinations of faults", "anchors": ["src/constant_pool.rs: ConstantPoolRef::resolve", "src/constant_pool.rs: resolve_constant_pool", "src/constant_pool.rs: validate_constant_pool", "src/constant_pool.rs: ConstantPoolEntry::validate"]}
{"id": "C48", "title": "Attributes get the kind their name says", "statement": "In an accepted class, an attribute has the variant of AttributeData belonging to its name if the name is one of the thirty the library knows, and is Other otherwise, wherever it is (class, field, method, Code, record component).", "quantifier": "every accepted file, every attribute at every depth", "why_tests_cant": "unbounded names and nesting", "anchors": ["src/attributes.rs: read_attributes", "src/attributes.rs: AttributeData"]}
{"id": "C49", "title": "Attribute tables list the rows as written, in order", "statement": "For every table attribute (line numbers, local variables, exceptions, inner classes, nest members, permitted subclasses, packages, method parameters, bootstrap methods) and for the exception table of Code, the result has exactly the rows in the file, in order; every number in a row is the two bytes at its place and every name the constant its index refers to (index 0 meaning absent where the format allows it).", "quantifier": "every accepted file, every such attribute", "why_tests_cant": "unbounded tables", "anchors": ["src/attributes.rs: read_linenumber_data", "src/attributes.rs: read_localvariable_data", "src/attributes.rs: read_localvariabletype_data", "src/attributes.rs: read_exceptions_data", "src/attributes.rs: read_innerclasses_data", "src/attributes.rs: read_methodparameters_data", "src/attributes.rs: read_bootstrapmethods_data", "src/attributes.rs: read_modulepackages_data", "src/attributes.rs: read_nestmembers_data", "src/attributes.rs: read_permitted_subclasses_data", "src/attributes.rs: read_code_data"]}
{"id": "C50", "title": "Annotation values and ConstantValue refer to constants of matching kind", "statement": "Every annotation element value at any depth of an accepted class is written with the tag of its variant and holds the constant of the matching kind at its index; ConstantValue holds an integer, float, long, double or string constant at its index.", "quantifier": "every accepted file, every value at every depth", "why_tests_cant": "unbounded nesting", "anchors": ["src/attributes.rs: read_annotation_element_value", "src/attributes.rs: read_annotation", "src/attributes.rs: read_constantvalue_data"]}
{"id": "C51", "title": "Type annotation targets decode per target type", "statement": "Every type annotation of an accepted class has the target its target_type byte stands for (JVMS table 4.7.20), with the operands and the type path written in the file.", "quantifier": "every accepted file, every type annotation", "why_tests_cant": "unbounded tables of targets and paths", "anchors": ["src/attributes.rs: read_type_annotation_data", "src/attributes.rs: TypeAnnotationTarget"]}
{"id": "C52", "title": "Releasing a class needs no more stack than parsing it", "statement": "Dropping a ClassFile recurses over nested annotation values and nested attributes no deeper than parsing the file did (nor than the file has bytes), so a class that could be parsed can be released; no fixed number of levels is enough.", "quantifier": "every accepted file, every stack size", "why_tests_cant": "unbounded nesting", "anchors": ["src/attributes.rs: AttributeData", "src/attributes.rs: AnnotationElementValue", "src/attributes.rs: CodeData", "src/attributes.rs: RecordComponentEntry", "src/lib.rs: ClassFile"]}
{"id": "C53", "title": "Errors are about a place where the file departs from the format, and name it", "statement": "When parse_class returns an error, there is a place in the file (magic, versions, constant i, the constants as a whole, access flags, this class, super class, interface i, the head of field or method i, attribute j of a field, a method or the class, the end, the rules on modules and bootstrap methods) such that everything before it is as the format demands and what follows is not, and the text of the error names that place by byte index, constant index, member number or attribute number (only texts about the descriptor of a field come without the number of the field). Conversely a file with such a fault is never accepted, and no file has two of them.", "quantifier": "every byte sequence, every options value", "why_tests_cant": "unbounded files and combinations of faults", "anchors": ["src/lib.rs: parse_class_with_options", "src/lib.rs: read_fields", "src/lib.rs: read_methods", "src/lib.rs: read_interfaces", "src/lib.rs: ParseError", "src/attributes.rs: read_attributes", "src/constant_pool.rs: read_constant_pool", "src/constant_pool.rs: validate_constant_pool", "src/constant_pool.rs: read_unresolved_cp_ref"]}
{"id": "C54", "title": "Texts are borrowed from the input, not copied", "statement": "Every text of a parsed class (names, descriptors, strings, SourceDebugExtension, the class names inside descriptors, and the texts of constantpool_iter's items) is a slice of the input bytes, lying inside the Utf8 constant or the SourceDebugExtension attribute it is from, whenever the bytes of that field are UTF-8; only texts from fields that are not UTF-8 (in files written by compilers: texts with a NUL or a character outside the basic multilingual plane) are copied, and these are parts of the decoded field.", "quantifier": "every accepted file, every options value, every text at every depth", "why_tests_cant": "unbounded files; whether a Cow is borrowed and where it points is not visible to equality tests", "anchors": ["src/constant_pool.rs: read_constant_utf8", "src/constant_pool.rs: read_cp_utf8", "src/constant_pool.rs: read_cp_classinfo", "src/constant_pool.rs: ConstantPoolIter", "src/descriptors.rs: parse_class_descriptor", "src/descriptors.rs: ClassName::try_from", "src/attributes.rs: read_attributes"]}
{"id": "C55", "title": "Memory held by a parsed class is proportional to the size of the file", "statement": "The texts that are copied and the parameters listed in method descriptors of a parsed class take memory proportional to the length of the input, with a small constant factor.", "quantifier": "every accepted file, every options value", "why_tests_cant": "unbounded files; memory is not observable in unit tests", "anchors": ["src/constant_pool.rs: read_constant_utf8", "src/constant_pool.rs: read_cp_utf8", "src/constant_pool.rs: read_cp_classinfo", "src/descriptors.rs: parse_method_descriptor", "src/descriptors.rs: MethodDescriptor", "src/lib.rs: read_interfaces", "src/lib.rs: read_methods"]}
{"id": "C56", "title": "Reservations ahead of reading are bounded by the input", "statement": "Collections are reserved for as many elements as a count in the file announces. For an accepted file all reservations of the call together are smaller (in elements) than the file (in bytes). For every input, accepted or not, they are at most 21845 elements per byte plus, when instructions are parsed, 2^31 for one switch; no single one exceeds 65535 elements (2^31 - 1 when instructions are parsed). The rate is real: a rejected input of 3d + 58 bytes makes the parser reserve 65535 d elements.", "quantifier": "every byte sequence, every options value", "why_tests_cant": "unbounded files, nesting and counts", "anchors": ["src/lib.rs: parse_class_with_options", "src/lib.rs: read_interfaces", "src/lib.rs: read_fields", "src/lib.rs: read_methods", "src/constant_pool.rs: read_constant_pool", "src/attributes.rs: read_attributes", "src/attributes.rs: read_code_data", "src/attributes.rs: read_stackmaptable_data", "src/attributes.rs: read_annotation_element_value", "src/attributes.rs: read_annotation", "src/attributes.rs: read_module_data", "src/bytecode.rs: read_opcodes"]}
{"id": "C57", "title": "Parsing takes a bounded number of steps per byte", "statement": "The work of parse_class is bounded by the length of its input, whatever the input and whether it is accepted or not: counting reads, lookups, comparisons, vector elements and every byte of a text that is copied, decoded or checked, at most 2^20 steps per byte and one more (if the call overflows the stack, one more per level of the stack), in particular never quadratic or exponential in the number of constants, members, attributes, instructions or in nesting. The factor reflects that a two-byte reference may copy a text of 65535 bytes, and is real in this sense: an accepted file of 32 + m + 2n bytes takes at least n(m+1) steps.", "quantifier": "every byte sequence that fits in the address space, every options value, every stack size", "why_tests_cant": "unbounded files; worst cases are combinations of long texts, many references, chains of constants and nesting that tests do not find", "anchors": ["src/lib.rs: parse_class_with_options", "src/lib.rs: read_interfaces", "src/lib.rs: read_fields", "src/lib.rs: read_methods", "src/lib.rs: validate_bootstrap_methods", "src/constant_pool.rs: read_constant_pool", "src/constant_pool.rs: validate_constant_pool", "src/attributes.rs: read_attributes", "src/bytecode.rs: read_opcodes", "src/bytecode.rs: validate_jumps", "src/bytecode.rs: get_opcode_index", "src/descriptors.rs: parse_field_descriptor", "src/descriptors.rs: parse_method_descriptor"]}
{"id": "C58", "title": "Accepted files pass the format checks of the JVM specification", "statement": "As the README promises, parse_class does all checks of JVMS 4.8 but some on attributes: the magic number, no missing or surplus bytes, recognised attributes of the proper length, every constant in accordance with section 4.4 (indices to constants of the right kind, valid names and descriptors, method handles, limits on parameters and dimensions, modified UTF-8, module constants only in module files, indices below the count), and it rejects no file for a constant that is in accordance with 4.4.", "quantifier": "every accepted file; every constant pool", "why_tests_cant": "unbounded pools; conformance to a specification cannot be settled by sample files", "anchors": ["README.md: Format checking", "src/constant_pool.rs: ConstantPoolEntry::validate", "src/constant_pool.rs: validate_constant_pool", "src/constant_pool.rs: read_constant_pool", "src/constant_pool.rs: read_methodhandle", "src/attributes.rs: read_attributes", "src/descriptors.rs: is_method_descriptor", "src/descriptors.rs: is_field_descriptor"]}
{"id": "C59", "title": "Version numbers only gate features", "statement": "Replacing the minor and major version of an accepted file gives a file that parses to the same class with these numbers if no constant kind, method handle, module flag or class initialiser in it conflicts with the new version (kinds introduced in 51, 53, 55; interface method handles from 52; ACC_MODULE from 53; <clinit> with parameters only before 51), and a file that is not accepted otherwise. The minor version is never looked at.", "quantifier": "every accepted file; every pair of version numbers", "why_tests_cant": "the version is threaded through the whole parse; 2^32 pairs per file", "anchors": ["src/constant_pool.rs: read_constant_pool", "src/constant_pool.rs: ConstantPoolEntry::validate", "src/lib.rs: parse_class_with_options", "src/lib.rs: read_methods"]}
{"id": "C60", "title": "Removing and reordering rows removes and reorders results", "statement": "Taking away or permuting rows of the interface, field, method and class attribute tables of an accepted file (with the counts adjusted) gives a file that parses to the class with the same rows taken away or permuted and nothing else changed, except that the BootstrapMethods attribute cannot be taken away while there are dynamic constants.", "quantifier": "every accepted file; every choice and order of rows of the four tables", "why_tests_cant": "independence of members from each other cannot be sampled", "anchors": ["src/lib.rs: read_fields", "src/lib.rs: read_methods", "src/lib.rs: read_interfaces", "src/lib.rs: parse_class_with_options", "src/attributes.rs: read_attributes"]}
{"id": "C61", "title": "An additional constant changes nothing else", "statement": "Writing one more constant at the end of the pool of an accepted file gives a file that is accepted if and only if the new constant is itself valid (and, if dynamic, has its bootstrap method), and then parses to the same class with one entry (two for long and double) added to the pool.", "quantifier": "every accepted file whose constants end at its count; every constant", "why_tests_cant": "every reader looks constants up in the pool", "anchors": ["src/constant_pool.rs: read_constant_pool", "src/constant_pool.rs: resolve_constant_pool", "src/constant_pool.rs: validate_constant_pool"]}
{"id": "C62", "title": "Descriptors and class names compare as their texts", "statement": "For all FieldDescriptor, ReturnDescriptor, MethodDescriptor and ClassName values a user can hold, a == b if and only if they print the same text, whether the texts are borrowed or owned; equal values hash alike and different ones feed the hasher differently, so they can be keys of maps; ClassName is ordered as its text by code points, a total order consistent with ==.", "quantifier": "every pair of values, whichever way they were made", "why_tests_cant": "infinitely many pairs; derived code has no tests of its own", "anchors": ["src/descriptors.rs: ClassName", "src/descriptors.rs: FieldType", "src/descriptors.rs: FieldDescriptor", "src/descriptors.rs: ReturnDescriptor", "src/descriptors.rs: MethodDescriptor"]}
{"id": "C63", "title": "Iterators may be handed from thread to thread", "statement": "With the threadsafe feature, threads may call next on shared iterators over the constant pool of an accepted class without undecodable constants, one call per iterator at a time, in any interleaving: the threads never deadlock, all calls return without a panic, and the calls on an iterator return, in order, what they would return in a single thread, whichever threads make them.", "quantifier": "every accepted file; every number of iterators and threads; every order of calls; every schedule", "why_tests_cant": "schedules cannot be enumerated by tests", "anchors": ["src/constant_pool.rs: ConstantPoolIter", "src/constant_pool.rs: peel!", "src/lib.rs: constantpool_iter"]}
{"id": "C64", "title": "Printing a class with {:?} ends and does not block", "statement": "Formatting an accepted class with {:?} follows the references of every constant and ends: a constant shows at most seven constants, at most four inside each other. With the threadsafe feature, threads may print a class while others print or iterate over it: none deadlocks, the iterating ones see what they would see alone, and a printed text differs from the text printed by a thread alone only in references shown as <locked>; a thread alone shows none.", "quantifier": "every accepted file; every number of printing and iterating threads; every schedule", "why_tests_cant": "the recursion follows pointers without remembering where it was; schedules cannot be enumerated", "anchors": ["src/lib.rs: ClassFile", "src/constant_pool.rs: ConstantPoolEntry", "src/constant_pool.rs: ConstantPoolRef", "src/constant_pool.rs: CafeCell", "examples/classfile.rs", "examples/threadsafe.rs"]}
{"id": "C65", "title": "What has been read decides", "statement": "A caller holding only the beginning of a file can trust what parse_class says about it: whatever follows, parsing the longer input gives the same error (or panic), unless the beginning was rejected with a message starting with 'Unexpected end of stream', or had been read to its end, in which case the longer input is rejected with 'Extra bytes found at index n', n being the length of the beginning. So every proper beginning of an accepted file is reported as an unexpected end of stream, an accepted file followed by anything is reported as having extra bytes at its end, and no continuation makes acceptable what was rejected for another reason.", "quantifier": "every byte sequence, every continuation, every options value, every machine", "why_tests_cant": "every way of cutting every file", "anchors": ["src/lib.rs: parse_class_with_options", "src/lib.rs: read_u1", "src/lib.rs: read_u2", "src/lib.rs: read_u4", "src/lib.rs: read_u8", "src/constant_pool.rs: read_constant_pool", "src/constant_pool.rs: read_constant_utf8", "src/attributes.rs: read_attributes", "src/attributes.rs: read_code_data"]}
{"id": "C66", "title": "Files that follow chapter 4 of the JVM specification are accepted", "statement": "Every class file laid out as chapter 4 of the JVM specification (SE 21) says is accepted: constants, descriptors, names, all thirty predefined attributes with their nested structures, the operands of all instructions, the rules for members, modules and bootstrap methods. (This is false in four respects: texts with unpaired surrogates used as names, classes whose names contain < or >, dynamically computed constants as arguments of bootstrap methods, and attributes with a predefined name in a file of an older version or at a place where the specification has them ignored.)", "quantifier": "every byte sequence that follows the specification, every options value, every build mode", "why_tests_cant": "the class files that may be written are infinitely many; tests have those of one compiler", "anchors": ["src/lib.rs: parse_class_with_options", "src/constant_pool.rs: read_constant_pool", "src/constant_pool.rs: BootstrapArgument", "src/constant_pool.rs: read_cp_bootstrap_argument", "src/attributes.rs: read_attributes", "src/bytecode.rs: ByteCode::from", "README.md"]}
{"id": "C67", "title": "Instructions and their offsets determine the code", "statement": "Whoever has the decoded instructions of a method with their offsets, the length of its code and the constants can write the code again: two code arrays of the same length, in files with the same constants, that are decoded to the same instructions at the same offsets differ at most in the padding of tableswitch and lookupswitch (which is not looked at) and in indices of constants that are the same to an iteration over the constants - except that the instructions invokespecial and invokestatic do not tell a method of a class (Methodref) from a method of an interface (InterfaceMethodref).", "quantifier": "all pairs of accepted files with the same constants, all pairs of Code attributes in them at any nesting, all bytes of their code", "why_tests_cant": "the short, plain and wide forms of an instruction decode to the same value; that offsets tell them apart concerns all pairs of arrays of any length", "anchors": ["src/bytecode.rs: Opcode", "src/bytecode.rs: read_opcodes", "src/bytecode.rs: ByteCode::from"]}
{"id": "C68", "title": "What parsing forgets", "statement": "Two files with the same constants that are parsed to the same value are the same but for these things: access flags (of the class, its fields and methods, and in InnerClasses) may differ in bits that have no name; an index may be that of another constant that says the same (the same item of an iteration, the same text, or a text beginning with the same descriptor); a frame of a StackMapTable with an offset of at most 63 may have its short or its long form; the target type of a type annotation may be another one of the same kind (0x00/0x01, 0x11/0x12, 0x13-0x15, 0x40/0x41, 0x43-0x46, 0x47-0x4b); the text of a SourceDebugExtension may be encoded in another way; lengths of attributes differ accordingly; and the number of constants may be written in two ways if the last constant is a long or a double. Everything else in an accepted file can be recovered from the value and the constants.", "quantifier": "all pairs of accepted files with the same constants, attributes nested to any depth", "why_tests_cant": "ranges over all pairs of files; a test compares chosen pairs", "anchors": ["src/lib.rs: parse_class_with_options", "src/lib.rs: ClassFile", "src/attributes.rs: read_attributes"]}
{"id": "C69", "title": "Iterating over the constants takes a bounded number of steps, and copies only texts that had to be decoded", "statement": "For every accepted file, however many times next is called on constantpool_iter: the calls take together at most one step for every call, four for every byte of the file and one for every byte of a text that is copied into an item; no constant is looked at twice, and finding the next one never takes longer than there are constants left. Texts that are valid UTF-8 in the file are not copied; a text that had to be decoded is copied each time it appears in an item, so if no such text is longer than L bytes then at most L bytes are copied for every byte of the file. These copies do happen: a file with one such text of m+1 bytes and n+1 constants that name it makes the iteration copy (n+1)(m+1) bytes. The same bound holds if a call panics (C11).", "quantifier": "all accepted files, all numbers of calls of next", "why_tests_cant": "ranges over all accepted files and numbers of calls; a test measures chosen ones", "anchors": ["src/lib.rs: ClassFile::constantpool_iter", "src/constant_pool.rs: ConstantPoolIter::next", "src/constant_pool.rs: make_method_handle", "src/constant_pool.rs: ConstantPoolEntry::utf8"]}
{"id": "C70", "title": "What the text of an error can contain", "statement": "Whoever logs the errors of the crate can rely on their texts: the message of every error and each of its contexts is one of the texts in the sources with its holes filled by decimal numbers (for the message about flags: by names of flags), so that the error is printed as one line of printable ASCII whatever the file contains - except for three messages: an unknown tag of an annotation element is shown as a character (any of the first 256, so it may be a line feed or a control character), the name of a superclass that a module may not have is quoted from the file, and the message about an undecodable SourceDebugExtension is that of the crate cesu8.", "quantifier": "every byte sequence, every options value, every machine", "why_tests_cant": "the error depends on the file; tests see the messages of the files they try", "anchors": ["src/error.rs: fail", "src/error.rs: err", "src/error.rs: ParseError", "src/lib.rs: parse_class_with_options", "src/attributes.rs: read_annotation_element_value"]}
{"id": "C71", "title": "The contexts of an error are paid for by bytes of the file", "statement": "Every step from the place of an error to the outside of the file adds at most one context, and the file pays for it: an error of parse_class has at most one context for every three bytes of the file, so that an error can never be much larger than the file that caused it. (Arrays in an annotation nested inside each other reach this rate, so the number of contexts has no constant bound.)", "quantifier": "every byte sequence, every options value, every machine", "why_tests_cant": "nesting has no bound; the contexts of an error depend on the whole path to it", "anchors": ["src/error.rs: ParseError", "src/error.rs: err", "src/lib.rs: parse_class_with_options", "src/attributes.rs: read_annotation_element_value", "src/attributes.rs: read_attributes"]}
{"id": "C72", "title": "The text of an error is at most a multiple of the length of the file", "statement": "For every file that is rejected, the message of the error has at most 200 bytes of UTF-8, unless it quotes the superclass name of a module (a name taken from the file and not longer than it) or is the message of the decoder of modified UTF-8, and every context has at most 100 bytes; hence the text printed by Display has at most 36 bytes for each byte of the file, plus 200 and the length of the decoder's message. No bound independent of the length of the file holds, and none below five times that length: nested annotation arrays reach it.", "quantifier": "every byte sequence of fewer than 2^64 bytes, both options, every machine on which the file fits, every decoder that does not make texts longer", "why_tests_cant": "The numbers in messages come from indexes, offsets, counts and switch keys all over the parser and the contexts pile up with nesting; tests print a handful of errors.", "anchors": ["src/error.rs: ParseError, fail!, err!", "src/lib.rs: parse_class_with_options", "src/attributes.rs: read_attributes, read_annotation_element_value", "src/bytecode.rs: ByteCode::from", "src/constant_pool.rs: read_constant_pool"]}
{"id": "C73", "title": "The same class can be written over other constants", "statement": "Let a file be accepted, and let other constants be given that are valid for its version and fit an index range of 16 bits, such that whatever an index of the old pool denotes (a text, or an item as an iteration over the pool shows it) some index of the new pool denotes, what ldc can load with an index of one byte it still can, and dynamic constants refer to bootstrap methods of the class. Then there is a file that starts with the new constants, has exactly as many bytes after the constant pool, and is accepted with the same class: the same versions, flags, names, fields, methods, attributes and decoded instructions at the same offsets; only the constant pool and the undecoded bytes of code differ. In particular, constants that are there twice may be merged, and putting the constants in another order and renumbering every reference to them gives a file of the same length for the same class, as long as what ldc loads keeps an index below 256. No result of the parser depends on the numbers of the constants.", "quantifier": "every accepted byte sequence not longer than the stack has levels, both options, both arithmetic modes, every decoder, every list of constants that offers as much, every renumbering", "why_tests_cant": "The renumbering affects every reference of every attribute and instruction in the file; tests parse the files compilers wrote, with the numbering they chose.", "anchors": ["src/constant_pool.rs: read_cp_*, ConstantPoolEntry", "src/attributes.rs: read_attributes", "src/bytecode.rs: ByteCode::from", "src/lib.rs: parse_class_with_options"]}
{"id": "C74", "title": "The members of two classes over the same constants can be put into one file", "statement": "Let two files be accepted that have the same list of constants, both interfaces or both not. Then each splits into a head and the rows of its four tables (interfaces, fields, methods, attributes), so that any choice of rows from both files, in any order and with repetitions, written behind the head of the first denotes exactly the class with the chosen interfaces, fields, methods and attributes: parse_class returns that class and nothing else, and it accepts the file if and only if the class as a whole keeps the rules (no two fields and no two methods with the same name and descriptor, <clinit> without parameters from version 51, no members in a module, bootstrap methods for the dynamic constants in one table). In particular all the interfaces, fields and methods of both can be in one class if their names or descriptors differ. What a row says depends on nothing but its bytes, the constants and the interface flag.", "quantifier": "every pair of accepted byte sequences over the same constants, every choice of rows, both options, both arithmetic modes, every decoder, every stack that is deep enough", "why_tests_cant": "Each row of one file would have to be combined with each row of every other; tests parse files as compilers wrote them.", "anchors": ["src/lib.rs: parse_class_with_options, read_interfaces, read_fields, read_methods", "src/attributes.rs: read_attributes"]}
{"id": "C75", "title": "Attributes can be left out and reordered at any depth", "statement": "No attribute of a class depends on another one being there, except that dynamic constants need their bootstrap methods: let a file be accepted, and take the class with any of the attributes of the class, of its fields, methods, code and record components left out or reordered, at any depth (as tools do that strip debugging information); if the constants still have their bootstrap methods, then there is a file over the same constants, not longer than the first, that is accepted and gives exactly that class.", "quantifier": "every accepted byte sequence, every choice of attributes at every depth, both options, both arithmetic modes, every decoder, every stack that is deep enough", "why_tests_cant": "The lengths of all enclosing attributes change with what is left out; the number of choices grows exponentially with the number of attributes.", "anchors": ["src/attributes.rs: read_attributes, read_code_data, read_record_data", "src/lib.rs: parse_class_with_options, read_fields, read_methods"]}
{"id": "C76", "title": "An attribute means the same wherever it stands", "statement": "What an attribute says is decided by its name, its bytes and the constants, not by where it stands: take any attributes of accepted files over the same constants, from any depth (of the class, of fields, methods, code or record components), and give each field, each method and the class any of them, in any number and order that fits a table. If the constants still have their bootstrap methods there is a file, longer by at most the length of the longest file per attribute, that (if the machine can hold it) is accepted and gives exactly that class: each attribute is read as it was read where it comes from. So a user must look himself whether an attribute is at a place where it has a meaning.", "quantifier": "every accepted byte sequence, every list of accepted files over the same constants, every choice of attributes for every table, both options, both arithmetic modes, every decoder", "why_tests_cant": "Each of thirty kinds of attributes would have to be tried at each place and depth, with every content.", "anchors": ["src/attributes.rs: read_attributes, read_code_data, read_record_data", "src/lib.rs: parse_class_with_options, read_fields, read_methods"]}
{"id": "C77", "title": "Code and the tables that refer to it are independent", "statement": "The parser checks code by itself and does not compare it with what refers to it: let a file be accepted, and take the class with any of its code, at any depth, replaced by other code (decoded to the given instructions if that is asked for) that is not longer, with any numbers of stack entries and local variables and any selection of the rows of its exception table; then there is a file over the same constants, not longer than the first, that is accepted and gives exactly that class. Line numbers, ranges of local variables, stack maps, type annotations and the rows of the exception table stay as they are, so that the offsets in them may be inside instructions or beyond the code: a user must check them before he uses them.", "quantifier": "every accepted byte sequence, every replacement code of any length up to that of the replaced one, both options, both arithmetic modes, every decoder, every stack that is deep enough", "why_tests_cant": "It ranges over all code there is in place of all other; tests parse code with the tables a compiler made for it.", "anchors": ["src/attributes.rs: read_code_data, read_linenumber_data, read_localvariable_data, read_stackmaptable_data", "src/bytecode.rs: ByteCode::from"]}
{"id": "C78", "title": "Whatever rows are left out, the rest still parses", "statement": "Let a file be accepted, and take the class with any rows left out or reordered in any tables at any depth: interfaces, fields, methods, attributes of the class, its members, code and record components, and the rows of exception tables, stack maps, line numbers, local variables, inner classes, annotations, parameter annotations, type annotations, bootstrap methods, method parameters, the tables of a module, packages, nest members, permitted subclasses and record components. If the constants still have their bootstrap methods, then there is a file over the same constants, not longer than the first, that is accepted and gives exactly that class: no row needs another one to be there, before it or after it.", "quantifier": "every accepted byte sequence, every choice of rows in every table at every depth, both options, both arithmetic modes, every decoder, every stack that is deep enough", "why_tests_cant": "Each subset of the rows of each table is a case of its own, with other lengths and counts in all tables around.", "anchors": ["src/lib.rs: parse_class_with_options, read_interfaces, read_fields, read_methods", "src/attributes.rs: read_attributes, read_code_data, read_record_data, read_module_data, read_annotation_data, read_parameter_annotation_data"]}
{"id": "C79", "title": "Flags, names and descriptors are independent of everything else", "statement": "Let a file be accepted, and exchange in its class the access flags, the class name, the superclass, the interfaces, and the flags, names and descriptors of the fields and methods for any others that the constants offer and that are well formed by themselves (flags the crate keeps, unqualified names, class names), leaving all attributes as they are. Then there is a file over the same constants, as long as the first except for two bytes for each interface more or less, and it is accepted exactly if the class meets the few rules about a class as a whole (members distinct, constructors and class initializers return nothing, a module file has no members); the result is then exactly the exchanged class. In particular no attribute is checked against the descriptor or the flags of the member it belongs to: a ConstantValue may have another type than its field, an abstract method may have code.", "quantifier": "every accepted byte sequence, every choice of flags, names, descriptors and interfaces, both options, both arithmetic modes, every decoder, every stack that is deep enough", "why_tests_cant": "The choices are as many as the constants offer, for every field and method, and each one changes what the bytes after it belong to.", "anchors": ["src/lib.rs: parse_class_with_options, read_fields, read_methods, read_interfaces, ClassAccessFlags", "src/names.rs: is_unqualified_name, is_unqualified_method_name"]}
{"id": "C80", "title": "Simple attributes can be written from the constants, for anything", "statement": "Let a file be accepted, and exchange the attributes of its class, fields and methods for any attributes that the class has somewhere and any others written from the constants: ConstantValue, Exceptions, InnerClasses, EnclosingMethod, Synthetic, Signature, SourceFile, LineNumberTable, LocalVariableTable, LocalVariableTypeTable, Deprecated, MethodParameters, ModulePackages, ModuleMainClass, NestHost, NestMembers and PermittedSubclasses, with any rows in which names, classes and descriptors are among the constants and numbers fit their two bytes. If the constants still have their bootstrap methods, then there is a file over the same constants, of bounded length, that is accepted (unless it is too long) and gives exactly that class: what is written in these attributes is not compared with the class, the member or the code they are about, nor with each other.", "quantifier": "every accepted byte sequence, every choice of attributes of these kinds with every choice of rows, in every place, both options, both arithmetic modes, every decoder", "why_tests_cant": "The rows are as many as the constants and numbers offer, in tables of up to 65535 rows for every member.", "anchors": ["src/lib.rs: parse_class_with_options, read_fields, read_methods", "src/attributes.rs: read_attributes, read_exceptions_data, read_innerclasses_data, read_linenumber_data, read_localvariable_data, read_localvariabletype_data, read_methodparameters_data, read_modulepackages_data, read_nestmembers_data, read_permitted_subclasses_data"]}
