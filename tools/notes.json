{
 "C02": {
  "note": "C02_every_line_is_read_in_one_way, _returns_the_columns, _returns_nothing_else: for every line, against SplitActual.v, which contains the two corners. C02_regular_lines: outside the corners this is the simpler grammar of SplitSpec.v; the two _refuted theorems show that inside them it is not."
 },
 "C07": {
  "note": "For every line, against the defects of SplitActual.v, with the exact message and position. The _simple_grammar_ theorems say the same on regular lines with the grammar of SplitSpec.v."
 },
 "C08": {
  "note": "Splitter and converter level. The message of a rejected line may differ between string and throw mode when two defects follow each other (C08_split_messages_agree)."
 },
 "C10": {
  "note": "resplit is not public (only the parser calls it, with its non-empty delimiter): C10_resplit_empty_delimiter_refuted shows what it would do with an empty one. C10_convert_empty_line_refuted: the empty line does depend on the history, as stated."
 },
 "C15": {
  "note": "Restrictions on every type they can be put on other than floating point and user types. C15_negative_bound_unsigned_refuted: with a negative constant on an unsigned type the result is not that of the numbers (C++ comparison)."
 },
 "C18": {
  "note": "A class's tied() is modelled by its member type list; T{...} by the list of its arguments."
 },
 "C22": {
  "status": "partial",
  "note": "C22_every_session_partial: any bytes (no NUL for the portable line reader), any setup, any history of get_next, try_next/or_else/on_error, ignore_next, header, raw_header, field_exists and use_fields; replies, texts, callbacks, eof() and line() agree exactly up to the parser's name. Left out: the calls whose behaviour is undefined in the code (all_covered, as in C41; C22_failed_skip_refuted, C41_or_else_refuted), and position(), which differs at the end of the data. C22_reading: with no or_else and no ignore_next in the history, nothing is left out but ignore_header over fewer than two lines with ignore_empty and escaped multiline (header_ok)."
 },
 "C23": {
  "note": "For data without NUL bytes; C23_nul_refuted shows the fgets-based version misbehaving on NUL. Whole sessions through the portable reader: C22_every_session_partial."
 },
 "C26": {
  "note": "Values, line numbers and, without multiline, the exact messages (C26_messages); only the text of an empty row's message can be an earlier row's: C26_stale_message_refuted."
 },
 "C28": {
  "note": "With a row behind the header: C28_ignore_header. A header and nothing else: eof() is false, one error is reported, then the data is over (C28_header_only, C28_header_only_refuted shows it concretely); no header at all: C28_no_header. Not covered: a header followed only by blank lines, with ignore_empty and escaped line ends, where the code reads stale text (C41_failed_skip_refuted)."
 },
 "C30": {
  "note": "Exact, for every number of further calls: what each reports, eof() and line() (C30_past_the_end, vocabulary past_end in ParserApi.v). With string errors every second call repeats the error of the last row, if it had one, with the next line number: C30_repeated_message_refuted shows the plain English claim to be false of the code."
 },
 "C34": {
  "note": "Exact, for every history of calls: which calls succeed, with which names, and which are refused (C34_header_functions). With throw_on_error a refused header that is asked for again answers with the names read so far: stated in the specification (asks in SessionSpec.v) and shown concretely in C34_asked_twice_refuted. Data with NUL bytes is included unless multiline is set (or the portable reader is used): a row counts up to its first NUL (c_string, C25_nul_example); with multiline it is false of the code (C25_nul_multiline_refuted)."
 },
 "C35": {
  "note": "Exact, at any point of a session (C35_use_fields, C35_selection_at_any_time). Stated as the code behaves: the row read first is delivered when ignore_empty skipped blank lines before it (C35_leading_blanks_refuted); a selection made in front of the last line is followed by one error (SessionSpec.v)."
 },
 "C37": {
  "status": "partial",
  "note": "Proved in front of every complete row. At the end of the data, and on rows cut off by the multiline limit or the end, the alternatives are tried on stale or partial text: C37_end_of_data_refuted, C37_incomplete_row_refuted."
 },
 "C44": {
  "note": "Up to the first call the specification leaves open (outside in SessionSpec.v: chains with alternatives at the end or on incomplete rows, try_next with throw_on_error, header queries with ignore_header, skipping blank lines with escaped multiline). C44_simple_histories and C44_plain_calls give classes of histories with no such call, the latter also past the end of the data. Data with NUL bytes is included unless multiline is set (or the portable reader is used): a row counts up to its first NUL (c_string, C25_nul_example); with multiline it is false of the code (C25_nul_multiline_refuted)."
 },
 "C41": {
  "status": "partial",
  "note": "Any bytes, any history of get_next, try_next/or_else/on_error, ignore_next, header, raw_header, field_exists, use_fields. Left out (covered_now in PropSafe.v), and shown to be false of the code: or_else on a multiline row that was given up (C41_or_else_refuted), or_else at the end of the data with multiline or ignore_empty (C41_retry_at_the_end_refuted), skipping the last line with ignore_empty and escaped multiline (C41_failed_skip_refuted), and NUL bytes through the portable getline (C23_nul_refuted). Without multiline: C41_without_multiline. Constructing is safe without exception (C41_constructing). C41_reading: histories without or_else and ignore_next need no such condition."
 },
 "C42": {
  "note": "Constructing: C42_constructing. get_next, however often: C42_reading. Every other call, for a file that could not be opened and for a null pointer of size 0: C42_no_call_crashes. ignore_next or or_else on a null pointer that was given a non-zero size read through it: C42_null_buffer_refuted."
 },
 "C43": {
  "note": "Exact for every pack of ordinary types: C43_filters also says when the program does not compile (a pack of exactly one type, dropped: C43_one_type_refuted). Elements that are themselves std::tuple or std::false_type are not kept as they are: C43_tuples_refuted."
 },
 "C40": {
  "note": "Moves at any points of any history do not show and free nothing twice. Move assignment onto a parser in use leaks its old resources (C40_assignment_leaks); the property does not promise otherwise."
 },
 "C45": {
  "status": "partial",
  "note": "fast_float build: C45_the_whole_column_is_the_number. strtod build: same outcome as strtod on the column for every length but 64 (C45_strtod_build_partial), where it writes behind its buffer (C45_sixty_four_refuted); it also accepts the empty column and out-of-range numbers (C45_accepted_by_strtod, C45_empty_column_refuted). from_chars and strtod themselves are parameters with their documented contracts."
 },
 "C46": {
  "status": "proved",
  "note": "For any state of the parser and any setup (no coverage condition): C46_views_until_the_next_row. C46_every_column says it for all columns of the row, converted or not, in sessions covered by C41. Moving the parser keeps the views too (C40_moves_do_not_show: the new parser has the same blocks). After the next row is read a kept view shows something else (C46_after_the_next_row)."
 },
 "C47": {
  "status": "proved",
  "note": "Bounds the three line buffers and the two lists of column ranges (std::vector may reserve up to twice their length). Not bounded here: the header (read once), and the allocator's own overhead. Calls with undefined behaviour (C41) are outside the model's runs."
 },
 "C48": {
  "status": "proved",
  "note": "From every state of the objects, reachable or not. std::bad_alloc is not modelled."
 },
 "C49": {
  "note": "C49_cut_in_a_line_end (PropExamples): why eof() after the row in front of the cut is left open. Data with NUL bytes is included unless multiline is set (or the portable reader is used): a row counts up to its first NUL (c_string, C25_nul_example); with multiline it is false of the code (C25_nul_multiline_refuted)."
 },
 "C50": {
  "note": "C50_table_conversions: any types. C50_records_roundtrip: typed values. C50_named_columns: with a header and use_fields. C50_example meets the hypotheses of all of them."
 },
 "C24": {
  "note": "Data with NUL bytes is included unless multiline is set (or the portable reader is used): a row counts up to its first NUL (c_string, C25_nul_example); with multiline it is false of the code (C25_nul_multiline_refuted)."
 },
 "C25": {
  "note": "Data with NUL bytes is included unless multiline is set (or the portable reader is used): a row counts up to its first NUL (c_string, C25_nul_example); with multiline it is false of the code (C25_nul_multiline_refuted)."
 },
 "C27": {
  "note": "Data with NUL bytes is included unless multiline is set (or the portable reader is used): a row counts up to its first NUL (c_string, C25_nul_example); with multiline it is false of the code (C25_nul_multiline_refuted)."
 },
 "C36": {
  "note": "Data with NUL bytes is included unless multiline is set (or the portable reader is used): a row counts up to its first NUL (c_string, C25_nul_example); with multiline it is false of the code (C25_nul_multiline_refuted)."
 },
 "C51": {
  "status": "proved",
  "note": "Failures of the allocations for the three line buffers and a stale errno are modelled; those of std::string and std::vector (messages, column ranges, values) are not. What is left after std::bad_alloc may only be destroyed: C51_use_after_refuted (finding 38), C51_stale_errno_refuted (finding 20)."
 },
 "C52": {
  "note": "What user code throws is a parameter (conv: by element type and text, back: by call), so it covers every deterministic user code; allocations by std::string are instances. C52_without_ignore_refuted (finding 39): without that ignore_next() the previous row is delivered again, or a null pointer followed on the first row. If the failed row is the last one, ignore_next() says so, but eof() stays false (finding 9)."
 },
 "C53": {
  "note": "At call boundaries. position() of a file can wrap around (C53_position_wraps_refuted); the bound says by how much. As in C47 the growth policy of POSIX getline is assumed to be modest (at most 128 + twice what is needed); calls with undefined behaviour (C41) are outside the model's runs."
 },
 "C54": {
  "status": "proved",
  "note": "Whether the deduction compiles and to what; that a class declared noexcept or static does not compile is C54_noexcept_refuted and C54_static_refuted. C++ types are modelled as far as these templates look into them."
 },
 "C55": {
  "note": "The counted functions of SplitCost.v are those of Splitter.v once the counter is forgotten (C55_work_is_of_split, C55_work_is_of_resplit). Counted: characters of the line looked at and moved; a character the code reads several times in one iteration counts once. Not counted: the growth of the vector of columns, and the work of the parser around the splitter (see finding 43 for its reallocations)."
 },
 "C56": {
  "note": "Callbacks are programs of calls on the parser (Callbacks.v); those that only look are shown to be the callbacks of Parser.v, so C37, C38, C41 and C44 hold of them in every form. Convertibility of argument types to parameter types is an arbitrary relation. Callables with overloaded operator() are not modelled; an object is taken apart by std::apply only if it is a std::tuple. Chains started inside a callback have callbacks that only look."
 },
 "C57": {
  "note": "Work is counted in accesses to the bytes of the line buffers, bytes moved by realloc (the worst case: the block is always moved) and copy_n, and bytes got from the file; conversions are not counted, and POSIX getline is taken to cost the line, its terminator and the old buffer if it is too small. ReadCost.v is proved equal to the reader when the counter is forgotten. C57_reading_is_linear: calls are get_next. C57_calls_are_linear: all calls that are covered (C41); the further attempts of a chain only convert again; looking a name up among the header's names is not counted, nor are callbacks. For the portable reader only the lower bound (quadratic) is proved."
 },
 "C58": {
  "note": "C58_documents and C58_multiline_on are about get_next, C58_sessions about every covered sequence of calls (C44; same answers but for texts of errors); with NUL-free data if rows may span lines; messages are the same text if rows do not span lines and the parsers' names are the same. A line that leaves a quote open under multiline has an unusable last field; then only that it is left open is the same (C58_lines)."
 },
 "C59": {
  "note": "About get_next; the data has no NUL if rows may span lines. That both conditions on the first document are needed is shown by examples."
 },
 "C60": {
  "note": "C60_modes_read_alike and C60_what_is_said_is_thrown are about get_next, C60_sessions about every covered sequence of calls (C44); splitter and converter alone are C08. Rows that cannot be split may be described differently in the two modes (C08), and the message of an empty row is not specified. A header with a repeated name is remembered differently with throw_on_error, and try_next does not compile with it. NUL-free data if rows may span lines."
 },
 "C61": {
  "note": "Taken from the source means taken by getline (file), fgets (portable reader) or read from the memory given; what the C library buffers inside FILE is not modelled. NUL-free data if rows may span lines. C61_sessions: the same after any calls of get_next, try_next chains, header(), use_fields(), ignore_next(), for calls that are specified (covered, see C44)."
 },
 "C62": {
  "note": "Floating point types and types with a user's extract are more permissive only inside optional, string and variant (nothing is known of two different ones). A loosened restriction keeps its type; loosened means: every value the old one lets pass, the new one lets pass. C62_rows is about get_next alone; C62_sessions about get_next mixed with header(), use_fields(), try_next chains, ignore_next() (the types of chains stay the same there), for calls that are specified (covered, see C44)."
 },
 "C63": {
  "note": "Types: std::string, string_view, char, optionals of these, void, ss::ne (numbers and booleans are about particular characters). Messages that quote the text of a column are not compared. Under multiline, a single line that leaves a quote open shows stale memory (C11), so C63_lines says only that both leave it open. NUL-free data if rows may span lines. position() is compared unless the data end inside the row."
 },
 "C64": {
  "note": "Selections made before the first row is read, or at any time after calls the specification covers (bn_later). C64_by_name: what is asked for in one document is asked for in the other; C64_same_answers: the same names in the same order, also the message; C64_order_of_names: another order."
 },
 "C65": {
  "note": "line() and position() of the last row before the part are compared only if a row of the unedited beginning follows it (with ignore_empty it may have skipped lines of the part). position() of the last row is compared if it does not miss its end. C59 is what it rests on."
 },
 "C66": {
  "note": "The parser is iterated from its construction on. string_view members: the texts are compared as they were when read (how long a view lives is C46). Assigning iterators is deleted in the code."
 },
 "C67": {
  "note": "Messages of rows in multiline setups are compared but for digits (a position in the text). The converter is one without a selection of columns: selecting is not in its public interface. A row's text counts up to its first NUL (c_string)."
 },
 "C68": {
  "note": "Rows of several lines are excluded because the claim is false of them (C68_two_lines_refuted); the last row because eof() stays false after skipping it (finding 9). Error messages are compared through row_reading and shown."
 }
}