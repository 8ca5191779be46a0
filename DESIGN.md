# Formal model of red0124/ssp — design

Source: `/repo/include/ss/*.hpp` (read as text). Prover: Coq 8.16.1, standard library only.
Everything lives in `rocq/theories` (logical name `Verif`).

## 1. Approach

Three layers.

* **L0, faithful model.** Function-by-function transcription of `splitter.hpp`,
  `extract.hpp`, `restrictions.hpp`, `converter.hpp`, `common.hpp`, `setup.hpp`,
  `parser.hpp` into total executable Gallina functions in a state + exception +
  undefined-behaviour monad.  Memory blocks are lists of cells
  (`option ascii`, `None` = uninitialised), pointers are offsets into a block plus
  a block generation number; an out-of-bounds, uninitialised or dangling access
  is the outcome `UB`, an exhausted loop bound is the outcome `OutOfFuel`, a C++
  exception is `Throw`.  In-place shifting, the double buffer, `realloc`, CRLF undo,
  the resplit offsets, the error flags of splitter/converter/parser in the three
  error modes are all modelled as coded, including the quirks.
* **L1, pure functions.** List functions describing what L0 computes, for
  every setup (proved equal to L0; this yields memory safety and termination).
* **L2, specifications.** Small definitions that do not mention L0/L1: joining,
  quoting and escaping functions, a column grammar, decimal notation, partition into
  lines, "first success".  Property theorems relate L0 to L2 only.

`Prop*.v` contain the property theorems (`Cnn_...`), with `Print Assumptions` below, and `Example`s showing
the hypotheses are met. A theorem name ending in `_partial` proves part of its property; a name ending in
`_refuted` proves that the unrestricted statement is false of the model, with a concrete witness.

## 2. What is modelled, property by property (plan)

| id | modelled | how proved |
|----|----------|-----------|
| C01 | splitter L0 with memory cells | L0 = L1 refinement (invariant: memory = prefix ++ kept ++ gap ++ pending ++ rest), fuel never exhausted |
| C02 | same | every line has exactly one reading by the rules of SplitActual.v (columns, or the first defect), and split returns it; the simple CSV grammar of SplitSpec.v is related to it, with `_refuted` theorems where the two differ (findings 1, 2) |
| C03-C06 | same | induction on field lists over L1, transported to L0 |
| C07 | same | the same rules: the first defect of a line, and the message and position split reports for it, for every line |
| C08 | three error modes as a parameter of L0 | simulation between modes |
| C09 | same | frame part of the refinement invariant |
| C10 | splitter and converter with any history of public calls (`reach`, `used`) | split clears every field it reads; convert on the empty line by the error state left by the last split |
| C11 | resplit | L1 quoted scan is compositional in the text |
| C12-C14 | extract | induction over digits; nested induction over types |
| C15 | restrictions on integers, wrappers, char, bool and optionals of them | exact: a separate account of the usual arithmetic conversions (`compared_in`, `counts_as`) and proof that the model compares the same way; pack induction for rows |
| C16-C18 | converter | induction over type list |
| C19, C20 | setup as a function from option lists | permutation induction; case analysis of the static asserts; both directions for `acceptable` |
| C21-C24 | common.hpp readers, remove_eol | induction over data with capacity invariant |
| C25-C37, C39 | parser | simulation of L0 parser by an abstract row machine over the remaining bytes |
| C38 | callbacks as pure functions | case analysis |
| C40 | move constructor/assignment field by field | equality of states |
| C41 | L0 parser | no-UB part of the simulation; `_refuted` for F13 |
| C42 | constructors | computation for all setups |
| C43 | type_traits on lists | induction |
| C44 | L0 parser, whole call histories | refinement of each call to a declarative session relation |
| C45 | to_num for floating point, both builds; from_chars/strtod as parameters with a contract | case analysis over lengths, longest-prefix contract |
| C46 | views as (block, begin, end) in the parser's memory | for any state: a call that came back converted columns of the line buffer; frame lemma: calls that read no row keep that buffer and the splitter |
| C47 | allocated size of the line buffers and length of the column lists; getline may at most double what it needs | invariant: current joined line + what is left is bounded, columns found never outrun the position in the line (`SplitCount.v`); partial correctness over every call |
| C48 | all operations, from any state | walk over every operation: only the error handlers throw, and only in throw mode |
| C49 | documents and parsers on `data` and `data ++ tail` | the lines in common; locality of `row` and `blanks`; then C25 |
| C51 | the reader and parser once more with a schedule of refused allocations and a possibly stale errno (`Fault.v`) | simulation: same result as without failures, or a wreck; ownership from C47's invariant |
| C52 | the functions that run user code once more, with what that code throws as a parameter (`User.v`) | frame lemmas: an unfinished get_next differs from a finished one by one read and the error flags |
| C53 | the counters of Reader.v | invariant: line number and lines left, position and bytes left, together with C47's bounds |
| C54 | member pointers, `function_traits`, `member_wrapper`, `has_m_*`, `no_validator` as functions on a small type language (`Validators.v`) | case analysis against a declarative list of signatures; the row type from C43 |
| C55 | the splitter with a counter of accesses (`SplitCost.v`), proved equal to `Splitter.v` when the counter is forgotten | amortised bound by induction over the loops: each iteration pays for its accesses with the characters it goes through, pending moves are the potential (`SplitWork.v`); independence of the memory behind the line (`SplitFrame.v`) |
| C56 | callables with signatures, bodies that write and use the parser, composites as objects (`Callbacks.v`) | simulation with Parser.v's chains for bodies that only look; otherwise the calls of the body are a session (C44) |
| C57 | reader and parser with a counter of accesses to line buffers, bytes moved and bytes read (`ReadCost.v`), proved equal to `Reader.v`/`Parser.v` when the counter is forgotten | potential: three per unread byte and the size of the line that is held; loops pay with the bytes they consume (`ReadWork.v`), a row of q appended lines costs its size q+1 times (`RowWork.v`); lower bound for the portable reader by induction over its pieces (`PortWork.v`); chains, ignore_next and the header functions are counted in `PropCallWork.v`, on the same potential and `SafeProofs.v`'s invariant |
| C58 | the same model, with two setups; `same_role` (`Roles.v`) | the reading of a line asks a setup only about characters of the line: congruence of each scanner (`psplit_same`); rows by induction over the document; multiline: a row that is complete is not continued; all options unused: corollary with the bare setup |
| C59 | as C25, with three parsers: on both documents, on the first, on the second | the lines of the whole are those of the parts; rows are local (C49); induction over the rows of the first document, its blank last lines joined with the blank first ones of the second (`Concat.v`) |
| C60 | as C25, with two parsers whose setups differ in the mode | rows by C58's lemmas (the roles are the same); readings by the pure splitter, which does not know the mode |
| C61 | as C25; what is left in the source (the rest of the file, or the data from the offset) | the invariant behind C25 says which lines are unread; lines determine the text |
| C62 | as C07 and C25; the order of types is an inductive definition of its own | induction over the order: what the spec of C06 says of the first type it says of the second; functionality of the specs carries it to the code |
| C63 | as C58; a map on characters, applied to setup, delimiter and data | induction over the splitter's scan: every test gives the same answer on the replaced character; specs of rows and values are mapped |
| C64 | two documents with headers, read by name | from C35 (cells by name): the columns of a name are found in both documents, each accepted column gives the same value |
| C65 | as C59 | the rows of three parts one after another (C59 twice), for the old and the new part; their readings compared |
| C66 | programs of iterator operations (begin, end, copy, ++it, it++, *it, ==, eof, get_next) over the model's iterators, against a pure walk over the document's rows | simulation: the rows still to come are what get_next answers from here on (C31's step), each iterator holds the same object; induction over the program |
| C67 | a converter (ConvProofs' `convert_obs`) and a parser on the same row | both are splitting and converting the same text: C25 for the parser, convert_line_thm for the converter; conversion is a function |
| C68 | `Parser.v`'s ignore_next and get_next, seen through `SessionSpec.v` | the specified steps of C44 lead from row to row; a row without a newline in it is one physical line, since every line followed by another one ends in a newline |
| C50 | tables written by TableSpec, values printed by RecordSpec | composition of C31's documents, C12-C14's conversions and C35's selections |

## 3. Trusted base

* Coq 8.16.1's kernel (no plugin of our own, no flag changed, no universe or guard check switched off).
* Axioms: none. `Print Assumptions` under every property theorem prints "Closed under the global context".
  (`vcheck` also lists axioms of loaded library files: `Coq.ssr.ssrunder`, loaded through the standard library's own
  dependencies; no theorem uses them.)
* That the model is what the code does. Every definition of the model files (first table of section 6) cites the
  lines of `/repo/include/ss` it was read from. Nothing here was compiled or run against the C++ code.
* That the specifications (second table of section 6) say what the English properties say.
* The contracts of what the code calls but does not define:
  - POSIX `getline`: returns the bytes up to and including the next newline, terminates them, never splits a line;
    if the buffer is too small it is replaced by one of a size chosen by an arbitrary oracle `cap` (hypothesis
    `enough cap`: large enough); bytes after the terminator are unspecified (uninitialised in the model); at end of
    file the buffer is left alone, or allocated if null. No read errors.
  - `fgets(buf, 128, f)`: at most 127 bytes, up to and including a newline, terminated; null at end of file.
  - `strlen`, `memcpy`, `strncmp`, `realloc`: byte by byte, with bounds checks; `realloc` always moves the block.
  - `std::from_chars` for integers: the C++17 contract (optional minus only for signed types, digits, out of range
    detected, no white space, no plus sign).
  - `fast_float::from_chars` (and `strtod`/`strtof` in the other build): an arbitrary function from texts to optional values
    (a field of the type `TFloat`'s oracle); nothing is assumed about which texts it accepts.
  - `std::string`, `std::vector`, `std::tuple`, `std::optional`, `std::variant`: lists, options, and the first alternative.
  - user code (callbacks, `extract` overloads, restriction `ss_valid`, constructors): arbitrary pure functions; callbacks are
    observed through a log of calls with their arguments.

## 4. Modelled and not modelled

Modelled, function by function, with undefined behaviour as an outcome: `setup.hpp` (all), `splitter.hpp` (all),
`extract.hpp` (integers, bool, char, string, string_view, optional, variant, user types; floats by oracle, and the buffer
handling of the `strtod` build), `restrictions.hpp` (all), `converter.hpp` (all forms of `convert`, `convert_object`,
mappings, error messages), `common.hpp` (all three line readers), `parser.hpp` (constructors, reader, `get_next`,
`get_object`, `iterate`, `iterate_object`, `try_next`/`or_else`/`on_error`/`values`, header functions, `use_fields`, `line`,
`position`, `eof`, `valid`, `error_msg`, moves and the destructor's frees), `type_traits.hpp` (the pack computations),
`exception.hpp` (the text of an exception).

The single header `/repo/ssp.hpp` is the concatenation of these files (compared as text: nothing differs but the include lines)
with `SSP_DISABLE_FAST_FLOAT` defined; what is proved here holds of it with the `strtod` build of C45.

Not modelled, and therefore outside every theorem:

* `std::bad_alloc`, `errno`: except in C51, allocations succeed. `Fault.v` (C51) models refused allocations of the line buffers
  (`strict_realloc`, POSIX getline) and `errno == ENOMEM` at the end of the data, also stale (finding 20); allocations by
  std::string and std::vector always succeed, and the position in the data after an interrupted read is not modelled.
* `size_t` arithmetic: sizes and counters are unbounded numbers, except `curr_char_`, a `Z`, which may go below zero where the
  code wraps. C53 bounds what the parser keeps, so that this makes no difference below 2^61 bytes and calls.
* the numeric value of floating point texts; long double; locale.
* I/O errors of `FILE*`, concurrent modification of the file or of the memory given as data; two threads on one parser.
* how a callback is invoked, and callbacks that change values or use the parser, except in C56 (`Callbacks.v`): elsewhere a callback
  is a function of the values of its alternative. Overloaded callables are not modelled.
* exceptions thrown by user code, except in C52: `User.v` writes the functions that run user code again with an outcome for an
  exception that is not an `ss::exception`; what is thrown is a function of the element type and the text, or of the call.
* pointer comparison and subtraction between two blocks (`resplit`, `adjust_ranges`): treated as the offset arithmetic
  it performs on a flat address space.

## 5. Simplifications common to the whole model

* `char` is `Ascii.ascii` (8 bits; only equality is used, digits by code).
* Loops are structural recursion on what is left to read, or recursion on fuel where a run-out is the distinct outcome
  `OutOfFuel`; the theorems say it does not happen.
* The identity of memory blocks is a number that changes with every reallocation; ranges remember the number, so a range
  into a freed block is detected as undefined behaviour.
* NUL bytes in data: a row counts up to its first NUL. The theorems about documents, rows and sessions allow any bytes if multiline
  is not set (`nuls_ok`), and no NUL with multiline (finding 37) or with the portable reader (finding 19). The safety theorems
  (C41, C47, C48) allow any bytes.
* `escaped_eol` forms the pointer `next_line_buffer_ - 1` for an empty line; only dereferencing counts as undefined here.
* The three error modes are a parameter of the setup. In bool mode an error is `Some []`.

## 6. Files

Model (each definition cites the code):

| file | models |
|------|--------|
| Base.v | bytes, memory cells, the outcome monad, error modes |
| Setup.v | setup.hpp |
| Splitter.v | splitter.hpp |
| Extract.v | extract.hpp, restrictions.hpp |
| Converter.v | converter.hpp |
| Reader.v | common.hpp, `struct reader` of parser.hpp, moves of the reader |
| Parser.v | parser.hpp |
| TypeTraits.v | type_traits.hpp |
| Strtod.v | `to_num` of extract.hpp in the build without fast_float |
| Fault.v | the readers of common.hpp and the parser once more, where an allocation for a line may be refused |
| User.v | conversion, get_next, try_next, or_else, on_error once more, where user code may throw |
| SplitCost.v | splitter.hpp once more, counting accesses |
| ReadCost.v | common.hpp and the reader and get_next of parser.hpp once more, counting work |
| Callbacks.v | try_next, or_else, on_error and composites once more, with callables |
| SplitApi.v, ConvTheorems.v (top), ParserApi.v, LineReads.v, SessionApi.v | not code: what a user observes of the above (a call and what it shows) |

Specifications (do not use the model's functions; they may use its types):

| file | says |
|------|------|
| SetupSpec.v | which options fit together |
| SplitSpec.v | the CSV reading of one line (grammar of columns) |
| SplitActual.v | the reading of every line, corner cases included: its columns, or its first defect and what is said about it |
| RowSpec.v, TableSpec.v | ways to write fields, rows, tables |
| ConvSpec.v | which texts denote which values; rows of columns |
| LineSpec.v | the physical lines of a text |
| ParserSpec.v | the rows of a document and what reading one shows |
| SessionSpec.v | what each call of a session returns |
| RecordSpec.v | texts for typed values; columns by name |

Everything else is proof; `PropSplit` (C01-C11, C19, C20), `PropConvert` (C08, C10, C12-C18), `PropReader` (C21, C23),
`PropParser` (C22, C24-C30), `PropMulti` (C31-C33), `PropSession` (C34-C36, C44), `PropChain` (C37, C38), `PropIterate` (C39),
`PropMove` (C40, C42), `PropSafe` (C41), `PropTypes` (C43), `PropCovered` (C44), `PropSame` (C22), `PropFloat` (C45), `PropViews` (C46), `PropMemory` (C47), `PropNoThrow` (C48), `PropCut` (C49), `PropRecord` (C50), `PropFault` (C51), `PropUser` (C52), `PropCount` (C53), `PropValidators` (C54), `PropWork` (C55), `PropCallbacks` (C56), `PropReadWork`, `PropCallWork` (C57), `PropRoles` (C58), `PropConcat` (C59), `PropModes` (C60), `PropLazy` (C61), `PropWiden` (C62), `PropAlike` (C58, C60 for sessions), `PropCalls` (C61, C62 for sessions), `PropRename` (C63; lemmas in `Rename`), `PropNames` (C64), `PropEdit` (C65), `PropIterators` (C66), `PropAgree` (C67), `PropSkip` (C68), `PropCases` (concrete cases for C23-C38) hold the property theorems.
`TestSplitter.v`, `TestParser.v` and `TestExtract.v` replay vectors of the library's own unit tests (test_splitter.cpp, test_converter.cpp, test_extractions.cpp,
test_parser1_*.cpp) on the model, by computation. They are tests of the model against the code's documented behaviour, not
proofs of a property.
L1 is SplitPure.v (splitter) and the recursive functions of ReaderEscape.v/ReaderParse.v (rows).

`tools/mkmanifest.py` writes MANIFEST.json from the theorem names and `tools/notes.json`. `tools/mutate.py` and
`tools/automutate.py` edit a copy of the model and rebuild it; `seeded/LOG.jsonl` has one line per edit.

## 7. Findings: where the code does not do what its properties say

Read off the code while proving; those with a name are proved in the model.

1. trim_right with escape: `match_delimiter`'s `shift_if_escaped` uses the member `end_` instead of the local end, so `a  \ b` reads as `a \ b` (C02_trim_before_escape_refuted).
2. `"a"\"x"` (closing quote, escape, quote) is accepted as `a"x` (C02_quote_escape_quote_refuted).
3. A delimiter of several characters containing NUL lets `split` run past the terminator (excluded from C01).
4. A NUL byte inside a line truncates the row silently (C25_nul_example).
5. A converter used directly with multiline: an unterminated quote is "valid" and the last column is a meaningless range.
6. `converter.split`/`convert` on an empty line keeps the splitter's previous error (C10_convert_empty_line_refuted); in a parser the message of an empty row can be the one of an earlier row (C26_stale_message_refuted).
7. An empty line has no columns, so it is an error for every type list (C27_an_empty_row_is_an_error).
8. `get_next` repeated at the end of the data in string mode: a stale conversion error replaces "read on end of file", and line() grows (C30_repeated_message_refuted).
9. `ignore_next` does not update `eof_`: a header-only source with ignore_header or use_fields yields one spurious error row (C28_header_only_refuted).
10. use_fields after ignore_empty skipped leading blank lines: the header row is delivered as data (C35_leading_blanks_refuted).
11. throw_on_error and a header with duplicates: the second request succeeds with the partial header (C34_asked_twice_refuted).
12. File mode: `curr_char_` is decremented on reads at the end of the file, so position() differs from buffer mode, and wraps around for an empty file (C53_position_wraps_refuted).
13. or_else after a row cut off by the multiline limit converts a meaningless range (C37_incomplete_row_refuted) or follows pointers into a freed block (C41_or_else_refuted).
14. try_next at the end of the data followed by or_else converts a stale earlier row (C37_end_of_data_refuted); with ignore_empty
    its bytes may have been overwritten by a blank line (C41_retry_at_the_end_refuted).
15. The line number in or_else's messages is one larger than in try_next's.
16. strtod build: a column of exactly 64 characters writes one byte past `short_buff` (C45_sixty_four_refuted); the empty column is accepted as 0 (C45_empty_column_refuted) and out-of-range numbers are accepted (C45_accepted_by_strtod).
17. int8_t/uint8_t columns are parsed as numbers, not characters.
18. ignore_header or ignore_empty given twice is silently switched off (C20_given_twice_refuted).
19. Portable getline: a line that starts with NUL reads and writes `lineptr[-1]` (C23_nul_refuted).
20. A stale `errno == ENOMEM` makes the readers throw std::bad_alloc at the end of the data, also of a memory buffer; the last row is lost (C51_stale_errno_refuted).
21. Move assignment leaks the buffers and the FILE of the target (C40_assignment_leaks).
22. The column number in a conversion error is the index of the argument, not of the column, once use_fields is in force.
23. header() of an empty file is one empty name; two copies of one iterator compare unequal unless both are at the end.
24. `remove_false` of a pack of one false_type is ambiguous (C43_one_type_refuted); `tup_cat` flattens elements that are tuples (C43_tuples_refuted).
25. multiline_restricted<N> allows N appended lines, i.e. N + 1 physical lines (C32).
26. A converter used directly with quote, escape and multiline: a line that ends in an escape inside quotes silently loses the field; an unquoted trailing escape is accepted.
27. throw mode with ignore_empty: the line number of an error counts the skipped blank lines after the row.
28. The position of a mismatched quote is off by one if an escape follows; string and throw mode give different messages for `"a"\`; after a resplit the position refers to the shifted buffer.
29. `resplit` with an empty delimiter leaves `resplitting_` set (C10_resplit_empty_delimiter_refuted).
30. Restrictions with a negative bound on an unsigned type compare after conversion (C15_negative_bound_unsigned_refuted).
31. Options wrapped in ss::setup<...>: the header splitter keeps multiline (modelled by the separate header setup `hc`).
32. Null data pointer with a non-zero size: ignore_next, or or_else followed by get_next, reads through it (C42_null_buffer_refuted).
33. ignore_next failing at the end of the file with ignore_empty and escaped multiline: the next get_next inspects bytes of the previous buffer (C41_failed_skip_refuted, C22_failed_skip_refuted).
34. A delimiter containing the escape character: a line ending in an even number of escapes can still end in a lone escape for the splitter, which multiline accepts silently.
35. A last field that ends in CR before an LF row end loses the CR (it reads as CRLF); the writer in C31/C33 uses CRLF there.
36. Portable getline after a multiline row may shrink the buffer below 128 bytes, so that the next read reallocates and ranges of the previous row dangle (or_else at the end of data).
37. A NUL byte in a quoted field that spans lines and contains escapes: bytes already moved by the shifting of escapes, lying before the NUL, are split again when the next line is appended and can close the quote (C25_nul_multiline_refuted).
38. `realloc_concat` assigns the new buffer size before the allocation that may fail (parser.hpp:990): after std::bad_alloc ignore_next writes past the buffer, and get_next joins lines that do not belong together (C51_use_after_refuted). Also the row that get_next had already converted when reading ahead fails is lost.
39. `get_next` catches only `ss::exception`, and only with throw_on_error (parser.hpp:139-148): any other exception from user conversion code leaves after `reader_.update()` and before `read_line()`, so the next get_next delivers the row before the failed one again, or dereferences a null buffer if it was the first row (C52_without_ignore_refuted). One ignore_next() repairs it (C52_exception_in_conversion).
40. A read error of the `FILE*` is taken for the end of the file (`getline` returning -1 without `ferror`): the data is silently cut. What was read before is right (C49).
41. A validator whose `ss_valid` is `noexcept` or static does not compile (C54_noexcept_refuted, C54_static_refuted); one whose `ss_valid` is overloaded or a template is silently no validator (C54_other_types): with a user-defined `extract` for that class its values are not checked.
42. A callback that can be called without arguments is called without arguments (`try_invoke_impl`): a generic `[](auto&&... xs)` never gets the values (C56_default_arguments_refuted).
43. `realloc_concat` (parser.hpp:987-997) reallocates to the exact size for every line it appends: where `realloc` has to move the block, a row of p lines and N bytes costs up to p*N/2 bytes of copying inside `realloc`. The splitter itself stays linear (C55). With a limit on the lines of a row the whole is linear in the document (C57).
44. A callback that reads on from the parser: `try_invoke_and_make_composite` asks `valid()` after the callback, so an error of the last row the callback read discards the value of the current row, and `or_else` then converts the row the callback read (C56_reading_on_refuted).
45. `composite_with` moves `values_` out of the composite it is called on (parser.hpp:402-409), also when that composite is an lvalue: a composite that is kept has lost its strings after `or_else` (C56_kept_composite_refuted).
46. The portable `get_line_file` (common.hpp:65-83) calls `strlen(lineptr)` from the start of the line for every 127 bytes it appends: reading a line of L bytes looks at L*L/254 bytes (C57_portable_reader_refuted). The variable `line_used`, set at the end of the loop body, already has that value.
47. `ignore_next` skips a line, not a row (parser.hpp:97-99, read_next): README.md:399 says it ignores a whole row, but of a quoted or escaped row of several lines it leaves all lines but the first, which get_next then takes for a row (C68_two_lines_refuted).
