# cafebabe in Rocq: design

Target: /repo (staktrace/cafebabe 0.9.0), all of `src/` except unit tests. Coq 8.16.1, standard library only.

## Files (rocq/theories)

| file | contents |
|---|---|
| `Base.v` | outcomes (`Ok`/`Err`/`Panic`/`Diverge`), the machine `env`, strings, integers, the parser monad |
| `M_Names` `M_Descriptors` `M_ConstantPool` `M_Bytecode` `M_Attributes` `M_Class` | the model, one file per Rust module, every definition citing file and lines (`M_Class` is lib.rs; error.rs is in `Base`) |
| `M_Cesu8` | model of the dependency cesu8 1.1.0 (not in /repo) |
| `M_Locks` | the threadsafe feature: an abstract machine of threads, mutexes, guards, poisoning, arbitrary schedules |
| `M_ParseLocks` | the functions of constant_pool.rs that lock while parsing, with their guards |
| `M_Drop` | destructors: reference counts and the recursion of `drop` over the constant pool |
| `S_*` | specification only: languages of byte strings (`S_Lang`), names and descriptors (`S_Names`), the class file format (`S_Format`), machines (`S_Env`), panics (`S_Safe`), pools in files (`S_Pool`, `S_Items`), attributes in files (`S_Frame`, `S_Within`, `S_Grow`), stripping (`S_Strip`), sizes (`S_Size`), texts (`S_Texts`, `S_Utf`), machines compared (`S_Better`), locks (`S_Locks`), memory (`S_Drop`) |
| `W_*` | the functions of the crate with a count of the steps they take; tied to M_* by the first conjunct of `C57_linear` |
| `R_*` | the readers of M_* with every `Vec::with_capacity` on record; tied to M_* by `C56_same_outcome` |
| `P_*` | proofs |
| `T_*` | the property theorems, named `Cnn_…`, with `_meets` examples and `_refuted` witnesses beside them |
| `Data` | class files of /repo/tests, to run the model on |
| `T_All` | one `Print Assumptions` over all property theorems |

## Modelling decisions

* Input: `list byte` (Coq's 256-constructor type), so no well-formedness hypothesis is needed. Cursor `ix : N`.
* `Result` is data; a panic path is the explicit value `Panic reason`. `?` is bind.
* Rust strings: `list N` of Unicode code points. Byte indices (`data[index..]`, `len()`, `as_bytes()`) are modelled through the
  UTF-8 width of each character; slicing off a character boundary or out of range is `Panic PSlice`.
* `Cow` is its contents in the model M_*; Z_* is the same model with borrowing, proved to have the same outcomes (C54_same). `Rc`/`Arc` pointers to pool entries are indices into the pool vector: the code
  only ever creates such pointers with `pool[target].clone()`.
* `HashSet` is a duplicate test by `Eq`. bitflags types are their bits, with `from_bits`, `from_bits_truncate`, `contains` as documented
  for bitflags 1.x.
* Integers: `N`/`Z`. Where the Rust code can overflow the model says what happens: `env.overflow_checks` selects panic (debug) or wrap
  (release). The sites: `cp_ix += 1` (u16), `high - low + 1` (i32), `source_offset + jump` (i32), and the usize additions
  `*ix + length` / `*ix + code_length` (`env.usize_max`). Other usize additions cannot overflow because slices are at most `isize::MAX` long.
* Recursion (nested attributes, nested annotation values, `validate_method_descriptor`) consumes `env.stack`, a number of
  recursion levels; running out is `Panic PStackOverflow`. This is not artificial fuel: it is the process stack.
* Loops (`while`, `loop`) carry fuel computed from the input; running out is `Diverge`, proved unreachable (C03).
* `Vec::with_capacity` in the two switch instructions can request gigabytes; `env.alloc_limit` and `usize_max` decide between success,
  capacity-overflow panic and allocation abort. All other `with_capacity` calls have u8/u16 counts and are taken to succeed; how much they reserve is counted in R_* (C56).
* `cesu8::from_java_cesu8` (external crate, source not in the repo) is the field `env.cesu8`, so that theorems hold for every decoder; a
  concrete decoder following the documented algorithm is in `M_Cesu8.v` and used where a property is about text.
* Floats are bit patterns (`from_bits`).
* Error values carry the same text as the code (message and contexts).
* Threads (`M_Locks`): a lock operation waits while any thread holds the cell; guards live to the end of the enclosing expression, as
  in Rust; a panic drops the guards and poisons their mutexes. Atomicity: one lock or unlock per step.
* Memory (`M_Drop`): strong counts of the `Rc`s of the constant pool; `drop` recurses when a count reaches zero.

## Property plan

C01 flagship: every model parser `p` satisfies `reads p L` for a format `L` (p succeeds with value a consuming word w iff
w is in L a), compositionally; the class-file theorem is the top of it. Most other "accepted file" properties are corollaries of the format.

| id | what is proved and how |
|---|---|
| C01 | `reads` for every reader; `parse_class` accepts exactly the files of `S_Format.class_format`, with exactly that value (`T_Class`) |
| C02 | false of the code: witnesses (undecodable NameAndType descriptor used by EnclosingMethod; NameAndType cycle; debug overflows). Proved: every panic has one of nine causes (`P_Safe*`, a second induction over the model with `ends`); and the exact condition (`C02_exact`, an iff, for 64-bit indices and a stack as deep as the input is long): the file follows the format up to a place and what follows is one of the kinds listed in `S_Panics.v` (`P_Panics*`, on top of the fault places of C53) |
| C03 | fuel adequacy: result never `Diverge` |
| C04 | false: a cycle of NameAndTypes overflows every stack; proved: with a stack as deep as the input is long that is the only cause, and exactly when it happens (T_Cycles) |
| C05 C07 C08 C09 C12 C17 C19-C23 C25-C32 C35 | corollaries of C01 / of the `reads` theorem of the component |
| C06 | relational induction over the format |
| C10 C11 | iterator refined to filter-map over the pool; C11 refuted, guarded version and exact panic condition proved |
| C13-C15 C18 C37 | grammar equivalence by induction over the string; C18 refuted (empty string, trailing slash), exact characterisation proved |
| C16 | refuted (descriptor `II` of a field); proved: parsed text is a prefix |
| C24 | a byte-level edit (`S_Grow`) and induction over the format |
| C33 | concrete decoder: encode/decode round trip |
| C34 | every text of the result is the decoded text of a constant (`S_Texts`) |
| C36 | `P_Depth`/`P_Deep`: depth bounded by length; for each depth n a class file needing it |
| C38 | lock order by rank of entries; progress, termination and equality of items for every schedule |
| C39 C40 | refuted with witnesses; positive part under guard |
| C41 | size measure by induction over the format |
| C42 | simulation between machines (`P_Better`) |
| C43 C44 | refuted for rejected files (cyclic references; chains); proved: exactly the entries not reached from a cycle are freed, accepted classes entirely and with four levels of recursion |
| C45 | the locking functions are equal to those without locks, except for self-deadlock on NameAndType cycles, exactly characterised |
| C46 | probes of the binary search bounded by the logarithm |
| C47 | errors of the constant pool stages located at the first offending constant; T_Cycles: exactly which constants pass, fail and overflow |
| C48 | language of attributes inverted: name of each of the thirty known kinds, at any depth |
| C49 | rows of each table attribute stated with bytes (S_Contents), from the format by induction on the table |
| C50 | values at any depth (inductive `value_in`), tag and constant stated with bytes |
| C51 | targets, paths and types of type annotations stated with bytes |
| C52 | destructors of nested data (M_DropData), induction over the format; nested arrays as lower bound |
| C53 | S_Faults: places and prefixes of the format; the parser is run up to the first place where the format is not met, and the text of the error computed there (P_Faults*); uniqueness: the prefixes as a deterministic machine reading the file from left to right (T_Faults2) |
| C54 | Z_*: the same functions with `Cow` (borrowed slice with its index, or owned) for every text; simulation of the two models function by function (P_Zero*), S_ZeroCopy says where texts are |
| C55 | S_Heap counts the bytes of copied texts and the parameters of the methods of a class of the model with borrowing; upper bound: at most 3 texts per 2 bytes of the file (P_Heap, over the languages of S_Format), each at most 65535 bytes long (grounded in a constant); lower bounds: two families of files shown to have the format (P_Heap4). False as stated |
| C56 | R_*: the readers that call `Vec::with_capacity`, with the list of the capacities on record; erasing the list gives the model (P_Reserve); an amortised cost per byte read for every reader, for runs that succeed and runs that fail (P_Reserve2-6); the lower bound by a family of files with nested annotation arrays (P_Reserve7); single capacities (P_Reserve8) |
| C57 | W_*: every function of the crate with a count of its steps (charges listed in W_Base.v: reads, lookups, comparisons, vector elements, contexts of errors, every byte of a text that is copied, decoded or checked; not counted: allocation, destructors, collisions in the hash sets); erasing the count gives the model (P_Work); an accounting logic in which every byte read brings in 2^20 steps (P_Work3), costs of descriptors (P_Work2), of resolving and validating constants, with a pigeonhole argument for chains of NameAndType (P_Work4-5), of references and instructions with the binary search (P_Work6-7), of attributes at any depth (P_Work8) and of the class (P_Work9); the rate by the family of files of C55 (T_Work) |
| C58 | S_Jvms: the rules of JVMS 4.3, 4.4 and 4.8 for constants and the lengths of attributes, written from the specification; the seven rules cafebabe does not check as a type `unchecked`; texts of descriptors determine descriptors (P_Jvms); for accepted files conformance is equivalent to passing the seven (from C09's `valid_constant`); one file per missing rule; the converse direction fails only for < and > in class names |
| C59 | S_Rewrite: bytes 4-7 replaced, `allowed_in` from JVMS table 4.4-B and 4.1, 2.9, 4.4.8; class_lang depends on the major version only through these; the converse by uniqueness of pool and body (T_Rewrite) |
| C60 | S_Rewrite: selections of rows; tables are sequences of independent rows (S_Lang.table), duplicates and method rules are inherited by selections; bootstrap rule in both directions (T_Rewrite2) |
| C61 | P_Mono: every format is monotone in the pool; appended constants are seen by no index in use (T_Rewrite3) |
| C62 | M_Traits: the derived PartialEq, Hash, Ord of descriptors over the model with borrowing, comparing bytes as Rust does; UTF-8 keeps the order of code points; texts of descriptors determine them since class names have no semicolon, shown for both ways to make a ClassName (T_Traits) |
| C63 | M_Handover: threads whose scripts name iterators; a call is begin, the lock operations of `next`, end.  Invariant: a busy iterator has exactly one caller, the position of an iterator is where the results it has given so far lead in a single thread; progress by lock order as C38 (T_Handover) |
| C64 | M_Debug: derived Debug of the pool as programs with try_lock beside the iterating threads of M_Locks; references go to kinds of lower level, so texts exist, are unique and small; printing threads never wait, so progress is as in C38 (T_Debug) |
| C65 | all parsers: `same m bs t ix` (a result on bs that is not an end-of-stream error is the result on bs ++ t) is closed under the parser combinators; the checks on lengths come before the slices (P_Early, T_Early) |
| C66 | S_Conforming: JVMS chapter 4 as a set of byte strings (table 4.7 as a list of rows: name, version, places, contents); proof: `covers L F`, every string of L is in F a for some value a, is closed under sequences, tables and indices, so a conforming file has the format of C01; four deviations with a rejected file each (P_Conforming, P_Conforming2, T_Conforming) |
| C67 | S_Assemble: padding and the constants an instruction is about; for each instruction the forms differ in length, so two byte strings of one length in its format are equal up to padding and index; induction over the array (P_Assemble) |
| C68 | S_Lost: a relation on byte strings, following the structure of files and attributes; every format of S_Format relates any two of its byte strings for the same value (P_Lost), so the class format of C01 does |
| C69 | W_Iter.v: the iterator of Z_ConstantPool.v (texts borrowed or owned) with a count of its steps: calls, rounds of the loop, references followed, and the bytes of owned texts that are cloned; erasing the count gives the iterator back; each item costs at most nine steps besides its copies, a round moves on by one index, and an index needs at least three bytes of the file; a symbolic family of files (P_Choir) reaches the rate |
| C70 | the string literals of all calls of fail! and err! are listed in S_Messages.v, with a function that fills their holes; every error of every model function has a message and contexts among them (structural sweep over the readers, no hypotheses), texts of the list are printable; three exceptions stated and reached |
| C71 | a potential for parsers: a reader that succeeds moves on by at least d bytes, one that fails has at most one context for three of the bytes left, with k bytes lent; compositional over all readers with the constants of each reader; a family of nested files, run symbolically (readers are stable under what follows), reaches the rate |
| C72 | triples for parsers (a predicate on the result, the position inside the input, short errors): the ranges of the numbers read, loop counters, indexes of constants, switch keys and lengths of lists are carried to the messages they appear in; a decimal number below 10^20 has at most 20 digits; with C71 for the number of contexts and its family of files for the lower bound |
| C73 | formats as sets of byte strings: each combinator of S_Lang.v, hence each format of S_Format.v, written with one pool can be written in as many bytes with another one that offers as much (lengths, offsets and padding stay); attributes become attributes that differ in the bytes of code only; with C01 (format = parser) |
| C74 | the format of a class is head and four tables; each table is rows one after the other, and a row of one file is a row of the other because its language mentions only the constants and the interface flag; determinism of single rows (read by the loops of the model started at one row) gives that the combined file denotes nothing else; with C01 (format = parser) |
| C75 | induction on the nesting depth in the format: a table of attributes without some rows is a shorter table, code and record attributes around it get a smaller length; the rules about the class mention names, descriptors and the table of bootstrap methods only; with C01 (format = parser) |
| C76 | an attribute within a class is a part of its file that belongs to the format of attributes at some depth (P_Within); the depth index does not matter up to the length of the part (P_Depth), so the part is a row of a table at any other place; with C01 (format = parser) |
| C77 | as C75: the format of a code attribute mentions the code in its length and in the format of its instructions only, so other code that fills its array gives a shorter attribute with the same tables; with C01 (format = parser) |
| C78 | as C75 with all tables of the format: a smaller count can be written in as many bytes, and the rows of a table are independent; one case for each kind of attribute; with C01 (format = parser) |
| C79 | as C75: two bytes of flags or of an index can be any other two bytes that denote something, and nothing after them in the format depends on them but the names of methods on the flags of the class; with C01 (format = parser) and uniqueness of the constants |
| C80 | as C76, with attributes whose bytes are built row by row from indices that the constants offer (at most ten bytes a row); with C01 (format = parser) |

## Testing the theorems

`seeded/LOG.jsonl`: each line is an edit of the model as a bug would make it, and the theorems that then fail. The edits were made in a
scratch copy, which was rebuilt with `make -k`.

## Trusted base

* Coq's kernel (and `vm_compute`, used for examples and finite tables).
* Axioms: none of our own; `Print Assumptions` on the property theorems (`T_All.v`) says "Closed under the global context". The only
  axioms in the loaded libraries are those of `Coq.ssr.ssrunder.Under_rel` (loaded with ssreflect by the standard library, not used).
* That the model is the code. The model was written by reading; it was run on the class files and unit tests of the repository
  (`Data.v`, examples), but the Rust code was never executed here.
* The documented behaviour of bitflags 1.x, cesu8 1.1.0, std (`Vec`, `HashSet`, `str`, `Rc`, `Arc`, `Mutex`).

## Not modelled

`Debug` output but for the structure of the constant pool's (C64), `examples/`, memory safety (the crate forbids unsafe), running time of anything but parsing (C57) and lookups (C46),
`with_capacity` calls with u8/u16 counts (taken to succeed), destructors of the data outside the constant pool of a rejected file, how the user hands an iterator to another thread (C63: a thread waits until it is idle).
