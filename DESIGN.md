# Formal model of libcmp/ccl in Coq 8.16.1

Source: `/repo` (read as text, never built).  Model and proofs:
`/verif/rocq/theories` (logical name `Verif`).

## 1. Conventions of the model

* **Outcome of a call** (`Base.v`): `Ok v`, `Throw e` (a C++ exception),
  `UB k` (undefined behaviour, tagged with its cause), `Terminate` (an exception
  leaving a `noexcept` function), `Diverge` (fuel ran out; a loop that may not
  end).  Undefined behaviour is a distinct outcome of the model: every raw
  read/write, signed overflow, `tolower` out of domain, falling off the end of a
  value-returning function, ... is an explicit case, so "no UB" is a theorem and
  "UB" is a possible witness.
* **Text**: a code unit / byte / code point is an `N`; a string is a `list N`; an
  iterator is an index.  String kinds: `char` (signed or unsigned), `char8_t`,
  `char16_t`, `char32_t`, `wchar_t` of 2 or 4 bytes.
* **Integers**: C++ integer types are (width, signedness) with the usual
  promotions spelled out; values are `Z`.
* **Floating point**: IEEE binary formats (24, 53, 64 and 113 significant bits).
  A finite value is an integer multiple of the format's smallest unit; every
  operation rounds to nearest, ties to even; infinities and NaN are separate
  values.  `std::pow` is a parameter of the model (C30).
* **Operating system, native windows, clocks**: oracles passed as arguments
  (answers of the system, the handles it chooses, time that passes), quantified
  in the theorems.
* **Handlers and other code of the user** (test functions, window handlers): given
  as data or as functions, quantified in the theorems.
* **Independent specifications** live in `*Spec.v` files, which import nothing of
  the model: Unicode encodings defined by arithmetic, numerals defined by their
  value, reference byte-array semantics for resources.
* Definitions needed to state theorems about the model (but not part of it) live in
  `*Text.v` files.  Property theorems live in `*Props.v` files with `Print
  Assumptions` beneath each, and examples showing that the hypotheses are met by a
  concrete case.  Model files contain no proofs; lemmas are in `*Lemmas*.v`.

When a property of the list is false of the code, the property statement stays
as the user would expect it, a theorem `..._refuted` gives a witness inside the
model, and a `..._partial` theorem gives the strongest true part (if possible an
exact "if and only if").  Manifest status is then `partial`.

## 2. Per property: what is modelled and how it is proved

Files: Unicode* (C01-C16, with UnicodeSpec), Number* (C17-C24, NumeralSpec), Float*
(C25-C28, C59, C60), Compare* (C29, C30), Test* (C52-C54), Application* (C55),
Resource* (C31-C39, C61, C62), Opaque* (C57), Stream* (C40-C47, C63), File* (C48-C51,
C64-C68), Key* (C58), Window* (C56, C69-C72), Stdio* (C73-C79),
TextFile* (C80-C88), Look* (C89-C93), DataFile* (C94-C98), FloatStream* (C99, C100),
Dummy* (C101, C102), Report* (C103, C104), Time* (C105-C107),
Fault* (C108-C110), Memory* (C111, C112), Shared* (C113-C115), Retry* (C116), Order* (C117), Talk* (C118, C119), Demo* (C119), Tie* (C120), Type* (C121-C124), Chain* (C125, C126), Thread* (C127), Crash* (C128), Torn* (C129, C130), Suite* (C131), Step* (C132, C133), Port* (C134), Log* (C135), Power* (C136), Grow* (C32), Manual* (C137), Alike* (C138), Reuse* (C71), Accept* (C139), Kind* (C140), Cut* (C141), Recover* (C142), Same* (C143), Book* (C144), Blend* (C145), Twin* (C146), Follow* (C147-C148), Thrift* (C149), Backup* (C150-C151), Patience* (C152), Typed* (C153), Rank* (C154-C155), Diary* (C156), Resume* (C157), Pair* (C13 and C14 exactly, C158), Any* (C16 exactly), Locale* (C159), Operand* (C16, order of evaluation), Long* (C33 and C35 exactly), LongFile* (C64, all reads), Cursor* (C34, C61 and C62 exactly, input), FileCursor* (C64 and C68 exactly, reads and seeks), Rank*2 (C154 and C155, values of either sign), ReadBack* (C27 and C59, exactly, in power-of-two radixes), Sort* (C160; C54, order), Search* (C161), Pen* (C32, C36 and C62 exactly, output), FilePen* (C64 exactly, writes and seeks), Hands* (C147 and C148 exactly), Crowd* (C113, C114, C115 exactly, C162), Relay* (C163, C164, C165), Early* (C166), Pass* (C167, C168), Late* (C169), Mirror* (C170), Journal* (C171), Renew* (C172), Chronicle* (C173), Mend* (C174).

| id | modelled | proof |
|----|----------|-------|
| C01 | insert/append/prepend_code_point on UTF-8, is_code_point_valid | case split on the four ranges, div/mod arithmetic against the spec encoder. Refuted for scalar values whose low 16 bits look like a surrogate (argument truncated to char16_t); exact iff |
| C02 | same functions, UTF-16/UTF-32/wchar_t | as C01 |
| C03 | same, plus std::string::insert with out_of_range | induction on the inserted units |
| C04 | is_code_point_valid with char16_t truncation | refutation + exact set of misjudged values |
| C05 | examiners.ipp | finite sweep for bytes lifted by forallb, range arithmetic for the rest |
| C06 | by_code_point<char8_t> iterator: deref, ++, end | invariant "index = length of encoding of consumed prefix" |
| C07 | by_code_point<char16_t> | refutation (pair makes the next step throw); exact behaviour on every text |
| C08 | retreat + reverse_iterator | invariant from the right |
| C09 | advance(n), retreat(n) | induction on n; UTF-16 `-=` refuted (calls advance) |
| C10 | iterators over arbitrary units | invariant index <= length; every read checked |
| C11 | retreat over arbitrary units | refutation; partial: there is a non-trailing unit to stop at |
| C12 | validate_string | never throws / no UB for all inputs; exact accepted language; refuted w.r.t. well-formedness |
| C13 | convert_string | composition of C06 and C01/C02 |
| C14,C15 | starts_with, ends_with | simultaneous induction |
| C16 | same on arbitrary input | refutations (UB on truncated tail, Terminate); partial on loosely decodable and plain strings; exact result for all code units by an independent account of reading from the front and the back (AnySpec.v) |
| C17 | format_integer, parse_integer with C++ arithmetic | digit-list induction, magnitude bounds; all types, radixes, separators, signs; MIN excluded (C19) |
| C18 | format_integer | equality with a spec numeral |
| C19 | format_integer on the minimum value | refutation; exact outcome |
| C20 | parse_integer | refutation ("1-2" accepted); soundness, completeness on proper numerals |
| C21 | parse_integer error kinds | per failure class theorems |
| C22 | prepend_digit arithmetic | refutations (silent wrap, UB on leading zeros); exact outcomes |
| C23 | formats.cpp | constructor proved; set_radix refuted with UB / divergence for every value |
| C24 | format_bool, parse_bool | from conversions |
| C25-C28, C59, C60 | format/parse_floating_point, floating_point_format in IEEE arithmetic | exactness of scaled digits by induction on places; error bounds by the rounding lemma; digit-by-digit reading bounded by induction (the first p digits relative to the value, all later ones by the size of their sum, also when r^k overflows); refutations by computation |
| C29 | count_digits | strong induction |
| C30 | cmp_equal and its relatives in IEEE arithmetic, std::pow a parameter | algebra of rounded differences; refutations |
| C31,C32 | io_buffer, output_resource, ctr_essence | refinement: content = written ++ buffered |
| C33,C38 | input_resource read path | refinement for reads within the capacity, invariant on all states; refutations for longer reads |
| C34,C61,C62 | set_position, get_position, is_at_end, go_back, go_forward | same invariant with seeks; for input, a machine (CursorSpec.v) shown equal to the code on every history |
| C35 | element size > 1 | same, bytes of elements; refutation; LongSpec has a machine (place in the container, bytes in the buffer, bytes used) that says what every sequence of reads of every size gives, and an induction over the reads shows that the model does the same |
| C36 | write_raw | exact content for every write; refutations |
| C37 | shared buffer of io_resource | refutations; refinement of a byte array for disciplined interleavings |
| C39 | tie | two resources, invariant over interleavings |
| C40,C41 | data streams, invert_endianness | list reversal, induction on the block; refutations |
| C42 | text streams write/read | round trip over every good source/sink, instantiated for container resources |
| C43,C44 | write_bom, read_bom | byte arithmetic; refuted without BOM |
| C45,C46 | read_line, operator >> string | exact result on all texts by induction; refuted for lone CR |
| C47 | << and >> of integers/bools | composition of C17, C42, C46 |
| C63 | decoding of arbitrary bytes | exact accepted sequences per encoding; termination by the length of the rest |
| C48 | file access modes | case analysis over every operation and history |
| C49,C50 | read_block / write_block with an OS oracle | induction on the answers; refutations |
| C51,C66,C67 | open / close / move / is_at_end | operational, refutations |
| C64 | the whole file object | refinement to bytes + position over histories, with an obliging OS; reads of every size against the machine of LongFileSpec |
| C65 | several files | frame lemma for every OS behaviour, interleavings |
| C68 | seeks before the beginning | case analysis, refutations across platforms |
| C52-C54 | test_module | fold invariants over queue and run |
| C55 | application instance pointer | refutation; invariant |
| C56, C69-C72 | window objects, associations, handlers that act, event loop; three toolkits | simulation between model and an owner map, by induction over nested actions; refutations by computation |
| C57 | opaque container resources | heap model with pointers; refutation for every call |
| C73,C76 | uin, uout, uerr over a console with input in pieces; the log of output and waits | invariant over call histories (bytes) and dialogues (text): every wait in the log |
| C74 | the same, with short and refused writes; end of the program | invariant; refutation |
| C75 | text questions over the same | induction over the dialogue, with the stream lemmas of C40-C47 for a source without end |
| C77 | the same, with failing reads | invariant; refutations |
| C78 | is_at_end of the standard input | exact behaviour for every unterminated text |
| C79 | order of static construction and destruction | computation |
| C80, C82, C85, C87 | programs that open a file, write or read text through a stream, and close it | the file as a source or sink in the sense of C40-C47, with the invariant of C64; induction over entries and requests; refutations by computation |
| C81 | requests of all kinds in any order | induction over requests; each leaves the stream before the rest of the text |
| C83 | the same over a system that gives fewer bytes or fails | the same lemmas for sources that may fall short: right result or read_past_end |
| C84 | access modes seen through streams | simulation with a sink that collects: the first byte to be written throws |
| C86 | two streams on two files | the invariants of both files over one system, induction over the text |
| C88 | text_io_stream | as C80; refutation |
| C89-C92 | titles, visibility and states of windows; conversions of titles; three toolkits | simulation between the model and a table of what is known about each window (generic in what is known), by induction over histories; refused titles by the exact behaviour of decoding (C10) |
| C93 | place and size of a new window on Windows, and that windows keep them | arithmetic of truncating division; simulation |
| C94, C96, C97 | data streams on files, on machines of both byte orders and with every behaviour of the operating system | the theorems about files (C48-C51, C64-C68) and about values in streams (C40) put together; induction over the values |
| C95 | a table of records in a file, used through a data I/O stream | simulation between the file's bytes and the table, by induction over the operations, with an invariant that allows any buffer state that setting the position repairs |
| C98 | access modes of files under data streams | case analysis |
| C99, C100 | the shift operators of text streams for floating-point numbers, on files | writing a number is writing its text and reading one is reading a word and parsing it, so that the theorems about texts in files (C80) and about formatting and parsing (C25, C27, C59) can be put together; induction over the numbers |
| C101, C102 | dummies, the message queues of test modules, copying and moving both; objects by address | one step lemma per call against functions of the history, induction over the program; balance: an invariant that counts the dummies of a module |
| C103, C104 | the text printed by a run of tests, main returning run_tests, exit status | induction over the tests as for C52, with the text of each line; reading back: every line ends at its line feed and every number at a space |
| C105, C106 | the conversion of clock differences to double: both roundings | error and monotonicity of rounding; running sums by induction with a bound that grows by one part in 2^52 per step |
| C107 | class demo_window of the example: its update function and its key handler | invariant over the sequence of updates and keys, from the right; the text by C18 |
| C108-C110 | input and output resources whose read_raw and write_raw throw, with the state they leave; destructors of streams; set_position | invariant: device and buffer hold what was accepted; for reads an account of every byte; refutations by evaluation |
| C111, C112 | strings with a capacity, the allocator as a list of answers; insert_code_point unit by unit, convert_string with its reserve | induction over the units of a code point and over the visited text |
| C113-C115 | one container behind a pointer, with its owner, a writer and a reader; every call sees the content of that time | the relation to a byte store of C31-C37, stable under appending and restored by seeking; an inductive relation for pipes |
| C116 | RetryModel: formatted input from uin with the exception caught, the stream kept where reading the word left it. RetryText: programs of prompts and questions, and the loop that asks until the answer is right. | The invariant of the standard streams (C73-C79) carries over each question; the parser is right on words with few digits by an induction over its loop, and never overflows on them. |
| C117 | the standard streams of C73-C79; the screen is all that was shown on either channel, in order | at most one channel has text waiting, and the screen with that text is all that was said; every step keeps this because it keeps the invariant of each channel |
| C118 | the standard streams of C73-C79 used by programs given as trees | a program does what the list of turns does that it takes; the invariants of C73-C75 along the list, with the question for each wait |
| C119 | main of the Unicode example, string literals encoded by the compiler, std::cout showing lines at once or at exit | the turns of the example, C118's lemma from the state after std::cout; expected bytes are compared by computation |
| C120 | container resources as objects at addresses with the defaulted copy and move operations, ties as addresses, move assignment that may empty the buffer | an invariant between the objects and an ideal world of outputs and inputs, kept by every deed (stands_for of C32-C39) |
| C121 | C++ types as a grammar (units, strings, views, classes, enumerations, pointers, arrays, references, const and volatile), sizeof, is_same, the traits | each trait against an inductive description of text; array bounds by division of sizes |
| C122 | implicit conversions and their ranks, the sixteen << operators, choice of the best function | all types by cases; the list of what compiles is complete (an equivalence) |
| C123 | the >> operators, exact matches only, bodies that must compile | cases on types with C121 for the concept |
| C124 | string_size, deduction guides of by_code_point, value_type_t, deduction of const T& | cases on the description of text |
| C125 | what each << and >> takes and returns, for six kinds of streams and the base class of those that write | the chains that compile are exactly those of one direction with flushes last (induction on the chain) |
| C126 | the operators of data streams for every type, variables and temporaries | by cases of types |
| C127 | which objects each deed of C120 touches (a read also touches the tied output and its container), histories of several threads, data races | frame lemmas: a deed depends on and changes only what its thread owns; induction on the history |
| C128 | the system calls that write, recorded during the calls of C64; the disk a killed process leaves before, within and after each | invariant: the file shows the calls before the writes waiting in the buffer; every system call writes these, or the current write, in order |
| C129 | the calls text streams make on their resource (StreamModel.v run with a resource that writes them down), made on a file whose process is killed (C128) | the stream does nothing but these calls, on any resource; every write is whole characters; then C128; refuted for surrogate pairs in the other byte order and for cut system calls |
| C130 | the calls data streams make, on a file whose process is killed (C128), and a later process reading the file (C94) | every value is one write; then C128 and C94 |
| C131 | the test functions of /repo/tests/automated, call by call, over the other models, with the files of /repo/tests/data as the disk; the machine (char, wchar_t, byte order, platform, sizes) and the configured capacity are parameters | evaluation for every choice of the finite parameters; the tests of text input by the theorems about text files (C80, C82) for all capacities; refuted for big-endian machines and small buffers. This also validates the model: it agrees with every expectation the authors wrote down |
| C132 | by_code_point<char> (UnicodeModel.v), where plain char is signed or unsigned | induction on the string; refuted for signed char by a witness |
| C133 | the remaining operators of by_code_point::const_iterator (StepModel.v) over UnicodeModel.v | case analysis of one step over arbitrary units; refuted by witnesses for the noexcept operators and for truncated strings |
| C134 | both implementations of files (FileModel.v), whole lives of a file object (PortText.v) | the raw operations of the two are equal functions on states without short reads, lifted through the buffer to every history; refuted by witnesses for the three differences |
| C135 | log_info and log_error in test functions, the buffer of std::cout, the unbuffered std::cerr that is tied to it, what a terminal shows (LogModel.v) | what is run with messages and without them is related step by step to the model of C103 and C104 (C135_results); what is emitted is described independently in LogSpec.v and follows by induction over tests (C135_shown, C135_abort_partial); filtering lines gives back the report of C104 (C135_report_partial); refuted by witnesses for unfinished lines |
| C136 | the system calls of a history (CrashModel.v), their effect on the disk delayed and reordered byte by byte (PowerModel.v) | all moments of the disk are explained by initial parts of the history (C128, by induction), so every byte and size comes from one of them (C136_past_partial, C136_unwritten); refuted by witnesses |
| C137 | the manual test program on the consoles of StdioModel.v, the tests of TestModel.v, and the numbers of NumberModel.v and FloatModel.v (ManualModel.v) | an invariant relates the state to all that was shown and is left to read; each step keeps it (C73, C74, C131); the verdicts by cases on the answers; refuted by witnesses |
| C138 | two runs of WindowModel.v with different toolkits, the codes of keys exchanged (AlikeSpec.v) | the expected stories differ in the codes of keys only (induction on nested actions), which C58 translates to the same keys; C56; refuted by witnesses |
| C139 | FloatModel.v, NumberModel.v | case analysis of the first radix character, C20 and C21 for the integral part, induction over the fraction; refuted by witnesses |
| C140 | FloatModel.v, NumberModel.v | the loops for two string types side by side, by induction over the fuel; the parsers by their outcome on code points; refuted by witnesses |
| C141 | FloatModel.v | error bound of the digit expansion with a remainder, induction over the digits; refuted by a witness |
| C142 | RecoverModel.v (text input with the stream kept after an exception) | agreement with StreamModel.v, induction over the pieces of a damaged text; refuted by a witness |
| C143 | the models of C42, C80 and C142 | the next code unit is a function of the bytes to come; a relation between two streams with the same bytes to come, preserved by every request; refuted by a witness |
| C144 | the models of C61, C66 and C142 with get_position and set_position of the resource | an invariant: the bytes to come are those from a place on, and the resource tells this place; a walk over the bytes is the specification; refuted by a witness |
| C145 | the models of C40, C42, C80 and C94: two streams on one resource | induction over the items: neither stream keeps bytes of its own, so the resource after one item is ready for the next; refuted by a witness |
| C146 | the models of C74 and C118: one program with two sets of standard streams | simulation of the two runs by induction over the program: both have the same code points to come and have sent the same bytes; refuted by witnesses |
| C147 | two file objects of the model of C48 on one file, sharing the state of the system; the specification of a pipe of C114 | induction over the interleaving: what was written is what is on the disk and then what is in the writer's buffer, and the reader's buffer stays a part of the file when the file grows; refuted by a witness |
| C148 | the same two objects, used in turns | induction over the turns: an object that waits has nothing unwritten, and set_position discards what it has read; refuted by witnesses |
| C149 | How often the system is called to transfer bytes: every such call uses up one response of the system's script, so the responses used up are counted (ThriftText.v). Refuted: with a buffer never more than without. Output: invariants over the history of writes and flushes, `calls + [something in the buffer] <= non-empty writes` and `calls * capacity + bytes in the buffer <= 2 * bytes written + flushes * capacity`, for every behaviour of the system; all calls return. Input: after every read the buffer has min(capacity, rest) bytes of the file from its position on; a full buffer took one call, the last one at most two, and one more for each read past the end. |
| C150 | A program of the user that copies a file in blocks (BackupText.v), on two file objects in one system. Refuted: longer old file, blocks longer than the buffer. Otherwise: invariant over the loop that a bytes were read and the destination is the old one with its first bytes replaced by these, as in C65 for two objects; opening and closing as there. |
| C151 | The same program with a system that may refuse any call, or transfer less. Refuted: buffered destination, short reads on Unix. Otherwise: the same invariant; a read gives some prefix of what is next, a write takes some prefix of its data, and a read that gave nothing is followed by the question for the end of the file. |
| C152 | A program of the user that copies a file and tries again whatever failed (PatienceText.v). Refuted: buffered destination, short reads on Unix, as C151. Otherwise: the invariant of C150, and every round either moves on in the file or uses up a failure of the system, so that bytes left plus failures left get fewer. |
| C153 | Parser and formatter models in sequence. Integers: the numeral of a value is unique (C18), so what is shown is what was typed. Floating point: refuted in decimal; exact in power-of-two radixes, where the digits of an exactly expanded fraction are the digits typed; otherwise the errors of C59 and C25 are added. |
| C154 | Texts are compared as fractions (RankSpec.v). Shown: every step of the formatter (rounding, product, digit) is monotone. Read: refuted for close numbers; whole numbers by monotone rounding, longer texts because every digit adds a number that is not negative, and numbers apart by more than the error of C59. |
| C155 | Refuted by two neighbours; integers by round trip (C17), floating point from exactness and the error of C25. |
| C156 | The model of killed processes (CrashModel.v), one process after the other (DiaryText.v). One run from C128 and C64, then induction over the runs. |
| C157 | The program as a relation "how far it may have come" (ResumeText.v) with the model of killed processes (CrashModel.v). C128 for two files of one process first, then an invariant over the steps of the program. |
| C158 | No new model. Reading at a place depends only on the units up to the end of the code point (shift and growth lemmas about dereferencing and advancing, PairLemmas2.v), so an iteration over two joined strings is the two iterations; the encoder adds the same units to every string. |
| C159 | The functions that read numbers once more, with what std::tolower does as a parameter (LocaleModel.v); they are shown to be the old ones in the "C" locale. Two locales with the same digits give the same, by induction over the loops; a character in which they differ is the witness of the converse. |
| C160 | `SortSpec`: the standard order of strings as an inductive relation, and the places UTF-16 gives to code points; encodings of different code points differ first in a unit of the same order (case analysis over lengths), then induction over the texts; strings come from `convert_string` through C13 |
| C161 | `SearchSpec`: occurrences in lists, the first one, and pieces between separators; units that begin a code point differ from the others, and no code point is the beginning of another one (from the order of C160), then induction over the text searched |
| C162 | `CrowdSpec`: a machine for a container with any number of writers and readers and its owner, made of the machines of C34 and C36; `crowd_run` by induction over the events, then appending turns by induction over the turns |
| C163 | `RelaySpec`: rounds of entries and requests, every request in front of what is left and what was added; the pair of resources is a good source and a good sink for the stream lemmas of C81 and C42, `relay_rounds` by induction over the rounds |
| C164 | the same with `tied_source`, whose end is asked for without a flush; witness for the refutation, `tied_rounds` if a character is read first |
| C165 | the two file objects of C147 are a good source and a good sink too (`file_pipeline`), so that `relay_rounds` applies |
| C166 | a program of entries, flushes and tries (with the stream kept after an exception, RecoverModel); a write is never split by the buffer, so the container always holds whole entries; an invariant says which characters were read, can be read, and are still in the buffer |
| C167 | a program of writes, flushes and tries of values of given sizes; a write is never split by the buffer (EarlyLemmas), so the container always holds whole values; an invariant says which values were read, can be read, and are still in the buffer |
| C168 | the program of C167 with two file objects on one file (RelayText); a write to a file is never split by the buffer, so the file always holds whole values; the same invariant as for C167 |
| C169 | the program of C166 with two file objects on one file, through any passage (PassLemmas); a write to a file is never split by the buffer, and ASCII characters are never split at all; the same invariant as for C166 |
| C170 | the programs of C167 and C168 with both streams in the other byte order | equality of the run with the run in the byte order of the machine on values with reversed bytes (no read changes the size of a block), then C167 and C168 |
| C171 | the runs of C156 that log lines | from C156_log: what a run reported is in its part of the log, whole; a line begins where the part before ends with a line feed |
| C172 | programs that save something in a file: they open it, write and flush, and end or are killed | as C156, from C64 and C128: the effect of a history of writes from the beginning of a file, and induction on the runs |
| C173 | the log of C171 read line by line with the model of text files | C171 and C156: an initial part of ASCII text is ASCII text, so the file holds a text, and reading it gives its lines (the lemma behind C80) |
| C174 | programs that add records to a file, from its end or from the end of the last whole record | as C156 and C172, from C64 and C128; the whole records of a file are an invariant of all later runs |
| C58 | key names, key translation | finite sweeps lifted to all codes |

Every property of the list is expressed in the model; none is marked
not_applicable.

## 3. Trusted base

* Coq 8.16.1's kernel (including `vm_compute` where used).
* `Print Assumptions` after every property theorem: see section 4.  `coqchk` lists in
  addition seven parameters `Coq.ssr.ssrunder.Under_rel.*`: they belong to a module
  type of the standard library that is loaded with it; no theorem depends on them.
* The faithfulness of the hand-written model to the cited C++ lines and to the
  C++20 semantics used (integer promotions, two's complement, `noexcept`,
  `std::reverse_iterator`, `std::string::insert`, strings that throw are unchanged, memcpy, iterator validity).
* What the model says about things outside /repo: POSIX and Windows file calls
  (FileModel.v), consoles (StdioModel.v), Windows, GTK and macOS windows (WindowModel.v, LookModel.v), IEEE arithmetic.
* The `*Spec.v` files as formalisation of the English properties.

Modelled parts of /repo (each definition cites file and lines):

* core: general.ipp (comparison, count_digits), application.cpp, test_module.ipp
  (with its dummies and the text it prints; main of the automated tests);
* unicode: examiners, algorithms, by_code_point iterators, formats, formatters,
  parsers;
* io: io_buffer, input/output/io resources, container and opaque container
  resources, seekable resources, data and text streams (also on files, and text_io_stream), files and the standard
  streams on Unix-like systems and Windows;
* desktop_gui: keys, events, window objects, event loop, titles, sizes, modes, showing and hiding, times told to update functions;
* examples: the demo window of the desktop_gui example, the Unicode example.

Not modelled: allocation failure other than in C108-C112, threads other than in C127, `wchar_t` sizes other than 2 and 4,
floating-point environment other
than round to nearest.

## Experiments with wrong programs

`seeded/LOG.jsonl` has one line per experiment.  `tools/mutate.py` copies the theories
out of this directory, makes the edit in one model definition, and compiles again
what depends on it; a proof that fails is replaced by `Admitted`, so that
`Print Assumptions` tells which property theorems no longer hold.

* `properties`: the properties whose English statement the edit is meant to break.
* `theorems_failed`, `lemmas_failed`: what no longer has a proof.
* `not_detected_by`: those of `properties` all of whose theorems survived.  Some of
  these edits turned out to be harmless for the property, or break another one
  whose theorems did fail; the others led to new theorems (`theorems_tightened`).
* `not_decided`: proofs that were stopped by the time limit or by a lack of memory;
  they are not counted as failed.  Older lines do not have this field: then the limit was
  400 s.  Only one proof is so slow without an edit (FloatLemmas4.v); the 25
  lines that it concerned were run again (`corrected`).
* With `--near` only what the theorems of `properties` need is compiled, so theorems of
  other properties may have failed, too, without being listed.

`tools/sweep.py` makes edits by rules (a comparison, a constant, a branch) in
definitions that have no line in the log yet, and lists those that no theorem notices.

## 4. Assumptions per theorem

`Print Assumptions` answers "Closed under the global context" for every theorem below:
no axiom is used, neither of the standard library nor of our own.

* C01 (partial): `C01_utf8_insert_refuted`, `C01_utf8_insert_partial`, `C01_utf8_refuses_non_scalars`, `C01_utf8_accepts_exactly`
* C02 (proved): `C02_utf16_utf32_insert`
* C03 (proved): `C03_insert_preserves_text`
* C04 (partial): `C04_validity_refuted`, `C04_validity_partial`
* C05 (proved): `C05_classification`
* C06 (proved): `C06_iterate_utf8`, `C06_iterate_plain`
* C07 (partial): `C07_iterate_utf16_refuted`, `C07_iterate_utf16_partial`
* C08 (proved): `C08_reverse_iteration`
* C09 (partial): `C09_arithmetic_utf16_refuted`, `C09_negative_offset_refuted`, `C09_arithmetic_partial`, `C09_utf16_single_steps`
* C10 (proved): `C10_iteration_memory_safe`, `C10_iteration_exact`, `C10_increment_without_read_refuted`
* C11 (partial): `C11_reverse_memory_safe_refuted`, `C11_reverse_memory_safe_partial`, `C11_step_back_exact`
* C12 (partial): `C12_validate_total`, `C12_validate_refuted`, `C12_validate_utf16_refuted`, `C12_validate_partial`, `C12_validate_utf16_partial`
* C13 (partial): `C13_exact`, `C13_conversion_refuted`, `C13_conversion_partial`, `C13_round_trip_partial`
* C14 (partial): `C14_exact`, `C14_answer_refuted`, `C14_starts_with_refuted`, `C14_starts_with_partial`
* C15 (proved): `C15_ends_with`
* C16 (partial): `C16_starts_exact`, `C16_ends_exact`, `C16_order`, `C16_total_refuted`, `C16_total_partial`
* C17 (partial): `C17_round_trip_refuted`, `C17_round_trip_partial`
* C18 (partial): `C18_canonical_partial`, `C18_canonical_refuted`
* C19 (partial): `C19_every_value_refuted`, `C19_every_value_partial`
* C20 (partial): `C20_accepts_refuted`, `C20_accepts_partial`, `C20_sound_partial`, `C20_numerals_partial`
* C21 (partial): `C21_failures_refuted`, `C21_nothing_else_partial`, `C21_empty`, `C21_last_character_partial`, `C21_digit_expected_partial`, `C21_multiple_signs_partial`, `C21_separator_missing_partial`, `C21_negative_unsigned`
* C22 (partial): `C22_no_silent_wrong_value_refuted`, `C22_fits_partial`, `C22_long_long_exact`, `C22_wraps_partial`, `C22_minimum_refuted`
* C23 (partial): `C23_radix_refuted`, `C23_radix_partial`
* C24 (partial): `C24_bool_refuted`, `C24_bool_partial`, `C24_nothing_else_partial`, `C24_u8string`
* C25 (partial): `C25_denotes_refuted`, `C25_near_partial`, `C25_exact_partial`, `C25_negative_partial`, `C25_shape`
* C26 (partial): `C26_terminates_refuted`, `C26_range_refuted`, `C26_terminates_partial`
* C27 (partial): `C27_round_trip_refuted`, `C27_negative_refuted`, `C27_separator_refuted`, `C27_integral_partial`, `C27_power_of_two_partial`, `C27_near_partial`, `C27_read_back`, `C27_power_of_two_exact`, `C27_denormal_refuted`
* C28 (partial): `C28_exactly_refuted`, `C28_parse_refuted`, `C28_format_partial`, `C28_parse_partial`
* C29 (proved): `C29_count_digits`, `C29_bad_radix`
* C30 (partial): `C30_symmetric`, `C30_transitive`, `C30_not_equal`, `C30_reflexive_refuted`, `C30_reflexive_partial`, `C30_places_refuted`, `C30_places_partial`, `C30_whole_partial`, `C30_close_refuted`, `C30_close_partial`, `C30_between`
* C31 (proved): `C31_buffered_output`, `C31_as_unbuffered`, `C31_existing_content`, `C31_longer_refuted`
* C32 (partial): `C32_exact`, `C32_position`, `C32_seeking_partial`, `C32_anywhere_partial`, `C32_end_refuted`, `C32_past_end_refuted`, `C32_part_refuted`
* C33 (partial): `C33_sizes_exact`, `C33_after_the_end`, `C33_buffered_input_partial`, `C33_long_read`, `C33_buffered_input_refuted`
* C34 (partial): `C34_exact`, `C34_relative`, `C34_seek_input_partial`, `C34_current_refuted`, `C34_past_end`
* C35 (partial): `C35_exact`, `C35_long_read`, `C35_wide_elements_partial`, `C35_wide_elements_refuted`
* C36 (partial): `C36_exact`, `C36_never_shorter`, `C36_exact_partial`, `C36_straddling`, `C36_exact_refuted`, `C36_gap`, `C36_broken_element`
* C37 (partial): `C37_coherent_partial`, `C37_lost_write_refuted`, `C37_overflow_refuted`, `C37_overflow`, `C37_stale_refuted`
* C38 (partial): `C38_at_most_requested`, `C38_remaining_partial`, `C38_remaining_refuted`
* C39 (proved): `C39_delivers`, `C39_tied`
* C40 (partial): `C40_bytes`, `C40_round_trip_refuted`, `C40_round_trip_partial`, `C40_other_order_refuted`, `C40_too_few`
* C41 (partial): `C41_invert_partial`, `C41_empty_refuted`, `C41_opposite`
* C42 (partial): `C42_round_trip_refuted`, `C42_code_points_partial`, `C42_strings_partial`
* C43 (proved): `C43_bom`, `C43_written`, `C43_short`
* C44 (partial): `C44_no_bom_refuted`, `C44_no_bom_exact_refuted`, `C44_no_bom_partial`
* C45 (partial): `C45_lines_refuted`, `C45_lines_partial`, `C45_lines_exact`, `C45_lines_exist`
* C46 (partial): `C46_words_refuted`, `C46_words_partial`, `C46_words_exact`, `C46_words_exist`
* C47 (partial): `C47_numbers_refuted`, `C47_numbers_partial`
* C48 (proved): `C48_read_refused`, `C48_write_refused`, `C48_reopened`, `C48_permitted`
* C49 (partial): `C49_in_order_partial`, `C49_short_read_refuted`, `C49_buffer_overrun_refuted`, `C49_within_block`, `C49_huge_read_refuted`
* C50 (partial): `C50_written_partial`, `C50_unbuffered`, `C50_silent_loss_refuted`
* C51 (partial): `C51_reopen_partial`, `C51_stale_refuted`, `C51_at_end_refuted`, `C51_at_end_terminates_refuted`
* C52 (partial): `C52_first_run_partial`, `C52_plain`, `C52_second_run_refuted`, `C52_throwing_test`
* C53 (proved): `C53_fifo`, `C53_empty_after_test`
* C54 (partial): `C54_texts_sorted`, `C54_zero_pad_partial`, `C54_outside_refuted`
* C55 (partial): `C55_last_constructed`, `C55_live_refuted`, `C55_live_partial`, `C55_none`
* C56 (partial): `C56_handlers_partial`, `C56_owner_partial`, `C56_nobody_partial`, `C56_moved_partial`, `C56_closed_partial`, `C56_refused_partial`, `C56_destroyed_refuted`, `C56_second_close_refuted`, `C56_moved_closed_refuted`, `C56_reused_handle_refuted`, `C56_assign_empty_refuted`, `C56_assign_refused_refuted`, `C56_close_in_handler_refuted`, `C56_close_hidden_refuted`
* C57 (partial): `C57_copy_refuted`, `C57_move_refuted`, `C57_dangling_refuted`, `C57_copy`, `C57_dangling`, `C57_independent_partial`
* C58 (proved): `C58_names`, `C58_complete`, `C58_distinct`, `C58_translated`, `C58_unlisted`
* C59 (partial): `C59_parse_refuted`, `C59_parse_partial`, `C59_near_partial`, `C59_negative_refuted`, `C59_late_digits`
* C60 (proved): `C60_invalid_radix`, `C60_valid_radix`
* C61 (partial): `C61_exact`, `C61_position_partial`, `C61_position_refuted`, `C61_at_end_refuted`
* C62 (partial): `C62_unnoticed`, `C62_waiting_moves`, `C62_go_back_forward_partial`, `C62_go_back_refuted`
* C63 (partial): `C63_strict_refuted`, `C63_decoding_partial`, `C63_settles`
* C64 (partial): `C64_seeks_exact`, `C64_go_back`, `C64_writes_exact`, `C64_waiting_moves`, `C64_never_shorter`, `C64_as_bytes_partial`, `C64_long_read_refuted`, `C64_write_after_read_refuted`, `C64_read_after_write_refuted`, `C64_reads_exact`, `C64_long_then_short`, `C64_sizes_exact`
* C65 (partial): `C65_other_files`, `C65_two_files_partial`, `C65_one_file_refuted`
* C66 (proved): `C66_open`, `C66_opens`, `C66_open_again`
* C67 (partial): `C67_closed_partial`, `C67_closes_refuted`, `C67_buffer_refuted`
* C68 (partial): `C68_relative`, `C68_unix_begin_partial`, `C68_stays_partial`, `C68_platforms_refuted`, `C68_in_reads_refuted`
* C69 (partial): `C69_answers`, `C69_open_partial`, `C69_twice_partial`, `C69_failed_partial`, `C69_reopen_refuted`
* C70 (partial): `C70_idle_partial`, `C70_once_partial`, `C70_close_refuted`
* C71 (partial): `C71_reused_partial`, `C71_times_partial`, `C71_assign_refused_refuted`
* C72 (partial): `C72_ends_partial`, `C72_destroyed_refuted`
* C73 (proved): `C73_prompts_first`, `C73_prompts_first_text`
* C74 (partial): `C74_flush_partial`, `C74_program_end_partial`, `C74_nothing_else_partial`, `C74_text_partial`, `C74_short_write_refuted`
* C75 (proved): `C75_answers`
* C76 (proved): `C76_no_needless_wait`, `C76_no_needless_wait_text`
* C77 (partial): `C77_input_in_order_partial`, `C77_failure_refuted`, `C77_failure_count_refuted`, `C77_redirected_refuted`
* C78 (partial): `C78_last_line_refuted`, `C78_last_word_refuted`, `C78_read_all_refuted`, `C78_end_reported_partial`
* C79 (partial): `C79_library_refuted`, `C79_header_only_partial`, `C79_order_exact`, `C79_destroyed`
* C80 (partial): `C80_text_file_partial`, `C80_longer_file_refuted`
* C81 (partial): `C81_any_mix_partial`, `C81_single_cr_refuted`, `C81_any_mix_exact`
* C82 (partial): `C82_appended_partial`, `C82_character_refuted`
* C83 (partial): `C83_any_system_partial`, `C83_short_read_refuted`
* C84 (partial): `C84_write_refused`, `C84_read_refused_partial`, `C84_at_end_refuted`
* C85 (partial): `C85_lost_refuted`, `C85_not_there_refuted`, `C85_kept_partial`
* C86 (partial): `C86_copied_partial`, `C86_character_refuted`, `C86_longer_refuted`
* C87 (partial): `C87_marked_partial`, `C87_single_cr_refuted`
* C88 (partial): `C88_byte_order_refuted`, `C88_appended_partial`
* C89 (partial): `C89_titles_partial`, `C89_titles_refuted`, `C89_zero_refuted`
* C90 (partial): `C90_without_window_partial`, `C90_without_window_refuted`
* C91 (partial): `C91_looks_partial`, `C91_windows`, `C91_again_refuted`, `C91_minimized_refuted`, `C91_macos`
* C92 (partial): `C92_refused_title_partial`, `C92_gtk_partial`, `C92_macos_refuted`, `C92_macos_set_title_partial`
* C93 (proved): `C93_centred`, `C93_kept`
* C94 (partial): `C94_values_partial`, `C94_other_order_refuted`, `C94_longer_file_refuted`, `C94_lost_refuted`, `C94_appended_partial`
* C95 (partial): `C95_table_partial`, `C95_byte_order_refuted`, `C95_in_turn_refuted`, `C95_in_turn_ub_refuted`
* C96 (partial): `C96_whole_file_partial`, `C96_other_order_refuted`
* C97 (partial): `C97_any_system_partial`, `C97_short_read_refuted`
* C98 (proved): `C98_write_refused`, `C98_read_refused`
* C99 (partial): `C99_saved_partial`, `C99_same_refuted`, `C99_negative_refuted`, `C99_range_refuted`
* C100 (partial): `C100_loaded_partial`, `C100_closest_refuted`, `C100_negative_refuted`
* C101 (proved): `C101_lives`, `C101_balance`
* C102 (partial): `C102_moved_refuted`, `C102_messages_partial`
* C103 (partial): `C103_exit_status_partial`, `C103_exit_status_refuted`, `C103_status`, `C103_throwing`
* C104 (proved): `C104_printed`, `C104_readable`
* C105 (partial): `C105_told`, `C105_sum_refuted`, `C105_sum_partial`
* C106 (partial): `C106_whole_partial`, `C106_whole_refuted`
* C107 (partial): `C107_title_partial`, `C107_counter_partial`, `C107_title_refuted`
* C108 (proved): `C108_kept`, `C108_container`, `C108_same_calls`
* C109 (partial): `C109_kept_refuted`, `C109_accounts_partial`, `C109_kept_partial`
* C110 (partial): `C110_ends_refuted`, `C110_destructor_partial`, `C110_position_partial`
* C111 (partial): `C111_unchanged_refuted`, `C111_left_partial`, `C111_unchanged_partial`, `C111_reserved`, `C111_same_calls`
* C112 (partial): `C112_once_refuted`, `C112_once_partial`, `C112_kinds`
* C113 (partial): `C113_old_bytes`, `C113_current_refuted`, `C113_current_partial`, `C113_repositioned_partial`
* C114 (partial): `C114_exact`, `C114_pipe_refuted`, `C114_pipe_partial`, `C114_order_partial`, `C114_tied_partial`
* C115 (partial): `C115_exact`, `C115_emptied_refuted`, `C115_emptied_partial`
* C116 (partial): `C116_replies_refuted`, `C116_replies_partial`, `C116_one_word_each_partial`, `C116_until_partial`
* C117 (partial): `C117_order_refuted`, `C117_order_partial`, `C117_unbuffered_partial`
* C118 (proved): `C118_reactive`
* C119 (partial): `C119_demo_partial`, `C119_redirected_refuted`, `C119_word_refuted`, `C119_unfinished_refuted`, `C119_library_refuted`
* C120 (partial): `C120_objects_partial`, `C120_destroyed_refuted`, `C120_moved_refuted`, `C120_tie_stays_refuted`, `C120_assign_refuted`
* C121 (partial): `C121_traits_partial`, `C121_one_kind`, `C121_volatile_pointer_refuted`, `C121_unsized_refuted`
* C122 (partial): `C122_shown_partial`, `C122_text`, `C122_characters_refuted`, `C122_pointers_refuted`, `C122_left_out_refuted`
* C123 (partial): `C123_read_back_partial`, `C123_char_refuted`
* C124 (partial): `C124_text_functions_partial`, `C124_volatile_refuted`, `C124_validate_refuted`
* C125 (partial): `C125_chains_partial`, `C125_parts`, `C125_flush_refuted`, `C125_turn_refuted`
* C126 (partial): `C126_objects_partial`, `C126_temporaries_refuted`, `C126_volatile_refuted`
* C127 (partial): `C127_threads_partial`, `C127_tied_refuted`
* C128 (proved): `C128_whole`, `C128_torn`, `C128_closing`, `C128_same_calls`, `C128_two_files`
* C129 (partial): `C129_characters_partial`, `C129_bytes_partial`, `C129_surrogates_refuted`, `C129_torn_refuted`
* C130 (proved): `C130_values`, `C130_read_back`
* C131 (partial): `C131_suite_partial`, `C131_text_input_partial`, `C131_containers_partial`, `C131_big_endian_refuted`, `C131_small_buffer_refuted`
* C132 (partial): `C132_characters_partial`, `C132_signed_char_refuted`
* C133 (partial): `C133_increment_partial`, `C133_postfix`, `C133_minus_partial`, `C133_equality`, `C133_arithmetic_terminates_refuted`, `C133_cut_strings_refuted`
* C134 (partial): `C134_same_partial`, `C134_no_file_refuted`, `C134_before_beginning_refuted`, `C134_short_read_refuted`
* C135 (partial): `C135_results`, `C135_shown`, `C135_report_partial`, `C135_glued_refuted`, `C135_abort_partial`, `C135_lost_refuted`
* C136 (partial): `C136_past_partial`, `C136_unwritten`, `C136_flushed_refuted`, `C136_order_refuted`, `C136_zeros_refuted`
* C137 (partial): `C137_wrong_first_partial`, `C137_answers_partial`, `C137_right_partial`, `C137_no_number_refuted`, `C137_accepted_refuted`, `C137_defined_refuted`
* C138 (partial): `C138_same_partial`, `C138_macos_partial`, `C138_gtk_partial`, `C138_hidden_refuted`, `C138_assign_refuted`, `C138_keyboard_refuted`
* C139 (partial): `C139_accepts_refuted`, `C139_defined_refuted`, `C139_reported_refuted`, `C139_accepted_partial`, `C139_numerals_partial`, `C139_numerals_exact`, `C139_nothing_else_partial`, `C139_fraction_partial`
* C140 (partial): `C140_format_integers`, `C140_format_floats`, `C140_parse_integers`, `C140_floats_refuted`, `C140_floats_partial`, `C140_pairs_partial`, `C140_bools_refuted`, `C140_bools_partial`, `C140_format_bools_partial`, `C140_format_bools_refuted`
* C141 (partial): `C141_rounded_refuted`, `C141_cut_partial`, `C141_exactly_cut_partial`, `C141_negative_partial`
* C142 (partial): `C142_same_reading`, `C142_nothing_lost_refuted`, `C142_damage_partial`, `C142_cut_short`, `C142_reaches_the_end`, `C142_salvage_partial`
* C143 (partial): `C143_any_buffer_refuted`, `C143_memory_partial`, `C143_file_partial`
* C144 (partial): `C144_wide_elements_refuted`, `C144_memory_partial`, `C144_file_partial`, `C144_places_of_characters`, `C144_again_partial`
* C145 (partial): `C145_other_order_refuted`, `C145_memory_partial`, `C145_file_partial`
* C146 (partial): `C146_same_partial`, `C146_library_refuted`, `C146_failing_refuted`, `C146_wide_refuted`
* C147 (partial): `C147_followed_refuted`, `C147_followed_partial`, `C147_in_order_partial`, `C147_old_bytes`
* C148 (partial): `C148_appended_refuted`, `C148_turns_partial`, `C148_appended_partial`, `C148_exact`, `C148_overwritten`
* C149 (partial): `C149_never_more_refuted`, `C149_writes_partial`, `C149_reads_partial`
* C150 (partial): `C150_same_refuted`, `C150_large_blocks_refuted`, `C150_copied_partial`
* C151 (partial): `C151_buffered_refuted`, `C151_short_read_refuted`, `C151_known_partial`
* C152 (partial): `C152_buffered_refuted`, `C152_short_read_refuted`, `C152_waited_out_partial`
* C153 (partial): `C153_minimum_refuted`, `C153_integers_partial`, `C153_written_partial`, `C153_decimal_refuted`, `C153_large_refuted`, `C153_whole_partial`, `C153_fractions_partial`, `C153_near_partial`
* C154 (partial): `C154_read_refuted`, `C154_shown_refuted`, `C154_shown_partial`, `C154_read_whole`, `C154_read_longer`, `C154_read_partial`, `C154_read_places_partial`, `C154_shown_signs_partial`, `C154_read_negative_refuted`
* C155 (partial): `C155_different_refuted`, `C155_integers_partial`, `C155_exact_partial`, `C155_apart_partial`, `C155_whole`, `C155_exact_signs_partial`, `C155_apart_signs_partial`
* C156 (proved): `C156_log`, `C156_runs`
* C157 (proved): `C157_start`, `C157_resumed`, `C157_ends`
* C158 (proved): `C158_pieces`, `C158_detour`, `C158_detour_exception`
* C159 (partial): `C159_classic`, `C159_turkish_refuted`, `C159_exact_partial`, `C159_floats_partial`, `C159_decimal_partial`, `C159_ordinary_partial`
* C160 (partial): `C160_order_partial`, `C160_utf16_exact`, `C160_utf16_refuted`, `C160_lists_partial`
* C161 (proved): `C161_found`, `C161_places`, `C161_pieces`
* C162 (proved): `C162_turns`, `C162_overwritten`
* C163 (proved): `C163_passed_on`
* C164 (partial): `C164_refuted`, `C164_character_first_partial`
* C165 (partial): `C165_followed_partial`, `C165_lines_partial`, `C165_line_refuted`
* C166 (partial): `C166_pieces_partial`, `C166_ascii_partial`, `C166_unbuffered_partial`, `C166_refuted`
* C167 (proved): `C167_values_passed_on`
* C168 (proved): `C168_values_through_a_file`
* C169 (partial): `C169_pieces_partial`, `C169_ascii_partial`, `C169_unbuffered_partial`, `C169_refuted`
* C170 (partial): `C170_container_partial`, `C170_file_partial`, `C170_palindromes_partial`, `C170_file_palindromes_partial`, `C170_refuted`
* C171 (partial): `C171_lines_partial`, `C171_empty_first_partial`, `C171_refuted`
* C172 (partial): `C172_saved_partial`, `C172_longest_partial`, `C172_runs`, `C172_refuted`
* C173 (partial): `C173_ascii_partial`, `C173_not_killed_partial`, `C173_refuted`
* C174 (partial): `C174_mended_partial`, `C174_found_partial`, `C174_refuted`
