{"id": "C01", "title": "Splitting is memory safe and terminates", "statement": "For every setup accepted at compile time, every delimiter without NUL bytes and every NUL-terminated line, converter.split / splitter.split terminates, reads only the bytes from the start of the line up to and including its terminator, and writes only inside that range.", "quantifier": "all setups, delimiters (any length), lines (any length), contents of memory after the terminator", "why_tests_cant": "the bounds argument ranges over every line, delimiter and every interaction of quoting, escaping, trimming and in-place shifting; an out-of-bounds read is usually silent in a test", "anchors": ["include/ss/splitter.hpp:split", "include/ss/splitter.hpp:read_normal", "include/ss/splitter.hpp:read_quoted", "include/ss/splitter.hpp:match_delimiter", "include/ss/splitter.hpp:shift_and_set_current"]}
{"id": "C02", "title": "Splitting agrees with the CSV reading of the line", "statement": "For every line, the columns returned by split are exactly the columns the quoting/escaping/trimming rules of the setup assign to the text: a field that starts with the quote runs to the first unpaired, unescaped quote followed by the (right-trimmed) delimiter or end of line; any other field runs to the first unescaped delimiter; escaped characters stand for themselves. Two corners belong to the rules as implemented: of a run of right-trim characters before an escape in an unquoted field the first is dropped and the escape stays, and inside quotes quote-escape-quote stands for a quote. Every line has exactly one reading or is malformed, never both.", "quantifier": "all setups, NUL-free delimiters, lines", "why_tests_cant": "the input space is unbounded and the interesting cases are combinations (trim next to escape, escape after closing quote, delimiter prefixes)", "anchors": ["include/ss/splitter.hpp:split_impl", "include/ss/splitter.hpp:read", "include/ss/splitter.hpp:match_delimiter"]}
{"id": "C03", "title": "Plain fields round-trip through join and split", "statement": "Without quote and escape, splitting fields joined by the delimiter returns exactly those fields (when no field or field boundary contains the delimiter), joining the split columns with the delimiter reproduces the line, and no column contains the delimiter; this holds for delimiters of any length.", "quantifier": "all field lists, all non-empty NUL-free delimiters", "why_tests_cant": "universally quantified over field contents, counts and delimiter lengths including self-overlapping delimiters", "anchors": ["include/ss/splitter.hpp:read_normal", "include/ss/splitter.hpp:match"]}
{"id": "C04", "title": "Quoted fields round-trip", "statement": "With a quote character configured, any list of NUL-free strings written quoted with quotes doubled and joined by the delimiter splits back to exactly those strings, also when fields contain delimiters, spaces to be trimmed, newlines or quotes.", "quantifier": "all field lists, quote characters, delimiters, trim sets", "why_tests_cant": "needs all contents: runs of quotes, quote next to delimiter, delimiter containing arbitrary characters", "anchors": ["include/ss/splitter.hpp:read_quoted"]}
{"id": "C05", "title": "Escaped fields round-trip", "statement": "With an escape character configured, any list of NUL-free strings written with every special character escaped and joined by the delimiter splits back to exactly those strings.", "quantifier": "all field lists, escape sets, delimiters, with or without quote", "why_tests_cant": "in-place shifting over arbitrary runs of escapes, including escapes next to delimiters and at field ends", "anchors": ["include/ss/splitter.hpp:shift_if_escaped", "include/ss/splitter.hpp:shift_and_jump_escape", "include/ss/splitter.hpp:shift_and_set_current"]}
{"id": "C06", "title": "Trimming removes exactly the configured surrounding characters", "statement": "With trim/trim_left/trim_right the column is the field text without its leading/trailing trim characters: padding added around fields never changes the result, interior trim characters and quoted content are preserved.", "quantifier": "all field lists, all paddings, all trim sets", "why_tests_cant": "trim interacts with every other option and with the delimiter position", "anchors": ["include/ss/splitter.hpp:trim_left_if_enabled", "include/ss/splitter.hpp:trim_right_if_enabled", "include/ss/splitter.hpp:match_delimiter"]}
{"id": "C07", "title": "Malformed lines are reported, well-formed lines are not", "statement": "split reports an error exactly when the line is malformed: a quoted field that is never closed (unterminated quote), a closing quote followed by something other than quote/delimiter/end (mismatched quote), or an escape as the very last character (unterminated escape); the message names that error, and for a mismatched quote its position. With multiline the first and the last are not errors: the line is to be continued.", "quantifier": "all lines and setups without multiline", "why_tests_cant": "an if-and-only-if over all inputs", "anchors": ["include/ss/splitter.hpp:handle_error_unterminated_quote", "include/ss/splitter.hpp:handle_error_mismatched_quote", "include/ss/splitter.hpp:handle_error_unterminated_escape"]}
{"id": "C08", "title": "The three error modes agree", "statement": "For the same input, the bool, string_error and throw_on_error modes accept exactly the same lines/rows with the same values; the string message equals the exception text where the first error is the last one.", "quantifier": "all inputs and setups differing only in the error option", "why_tests_cant": "relational property between three programs over all inputs", "anchors": ["include/ss/splitter.hpp:valid", "include/ss/converter.hpp:valid", "include/ss/parser.hpp:valid", "include/ss/parser.hpp:decorate_rethrow"]}
{"id": "C09", "title": "Lines are not modified outside the scanned range, nor at all without quote and escape", "statement": "When neither quote nor escape is configured split leaves the line untouched; otherwise only bytes between the start of the line and its terminator may change and the terminator stays.", "quantifier": "all lines and setups", "why_tests_cant": "frame condition over all inputs", "anchors": ["include/ss/splitter.hpp:is_const_line", "include/ss/splitter.hpp:shift_and_set_current"]}
{"id": "C10", "title": "Splitting is independent of what was split before", "statement": "What split shows on a reused splitter, and convert on a reused converter, depends only on the line, delimiter, setup and column selection, not on earlier lines, errors or conversions - except that the converter does not split the empty line: there it shows the error of the last non-empty line again, if that had one, and otherwise treats it as a row without columns.", "quantifier": "all lines, delimiters (the empty one included), all histories of public calls", "why_tests_cant": "history-quantified; a stale flag only shows after particular sequences", "anchors": ["include/ss/splitter.hpp:split", "include/ss/splitter.hpp:clear_error", "include/ss/converter.hpp:split"]}
{"id": "C11", "title": "Continuing a multiline quoted field equals splitting the whole text at once", "statement": "When a quoted field is unterminated and the next physical line is appended, the continued split returns the same columns as a single split of the concatenated text would.", "quantifier": "all first parts, all continuations, any number of continuations, all setups with quote and multiline", "why_tests_cant": "the incremental state (shift amount, ranges moved to a new buffer, resumed quote) must be right for every cut point", "anchors": ["include/ss/splitter.hpp:resplit", "include/ss/splitter.hpp:adjust_ranges", "include/ss/splitter.hpp:size_shifted"]}
{"id": "C12", "title": "Integer conversion is exact", "statement": "Converting a column to an integral type succeeds exactly when the text is an optional minus (signed types only) followed by one or more decimal digits whose value lies in the range of the type, and then yields that value; every representable value's decimal text converts back to it.", "quantifier": "all texts, all signed/unsigned widths", "why_tests_cant": "unbounded texts and all boundary values of all widths", "anchors": ["include/ss/extract.hpp:to_num", "include/ss/extract.hpp:extract"]}
{"id": "C13", "title": "Boolean, char and string conversion", "statement": "bool accepts exactly 1, 0, true, false with the obvious meaning; char accepts exactly one-character columns; string and string_view always succeed with the column text unchanged.", "quantifier": "all texts", "why_tests_cant": "all contents and lengths", "anchors": ["include/ss/extract.hpp:extract"]}
{"id": "C14", "title": "Optional and variant conversion", "statement": "Conversion to optional never fails and holds a value exactly when the inner conversion succeeds; conversion to a variant yields the first alternative in declaration order whose conversion succeeds and fails exactly when all fail; nesting included.", "quantifier": "all texts, all nestings of optional/variant", "why_tests_cant": "quantifies over types as well as inputs", "anchors": ["include/ss/extract.hpp:extract_variant", "include/ss/extract.hpp:extract"]}
{"id": "C15", "title": "Restrictions mean what they say", "statement": "ax rejects exactly the listed values, nx accepts exactly the listed values, gt/gte/lt/lte/ir/oor accept exactly the numbers satisfying the comparison (bounds inclusive/exclusive as named; characters by their signed code, booleans as 0 and 1, an optional without value below every number; the comparison is that of C++: if the wider of the two types, after widening to at least 32 bits, is unsigned, a negative number counts as itself plus 2 to the number of bits, and otherwise numbers are compared as they are), ne rejects exactly empty strings; a restricted column is accepted exactly when the conversion succeeds and the predicate holds, with the value unchanged, and otherwise is reported with the text of the restriction.", "quantifier": "all values, all parameter packs", "why_tests_cant": "boundary values for all parameters; pack recursion of any length", "anchors": ["include/ss/restrictions.hpp:ax", "include/ss/restrictions.hpp:nx", "include/ss/restrictions.hpp:ir", "include/ss/restrictions.hpp:oor", "include/ss/restrictions.hpp:ne", "include/ss/converter.hpp:extract_one"]}
{"id": "C16", "title": "Row conversion is all-or-nothing and reports the first failing column", "statement": "convert is valid exactly when the number of columns matches and every column converts and validates; then the values are the conversions of the columns in order; otherwise the error names the first failing column and its text.", "quantifier": "all rows, all type lists", "why_tests_cant": "list-quantified over types and columns", "anchors": ["include/ss/converter.hpp:convert_impl", "include/ss/converter.hpp:extract_multiple", "include/ss/converter.hpp:extract_one"]}
{"id": "C17", "title": "void columns are skipped", "statement": "A void in the type list consumes one column whatever its content and contributes no value; the other columns keep their position and order.", "quantifier": "all rows, all type lists", "why_tests_cant": "position bookkeeping over arbitrary type lists", "anchors": ["include/ss/converter.hpp:extract_multiple", "include/ss/converter.hpp:no_void_tup_t", "include/ss/type_traits.hpp:filter_not"]}
{"id": "C18", "title": "Tuple, tied-object and pack forms convert alike", "statement": "convert<std::tuple<Ts...>>, convert<T> for a tied class, convert_object<T, Ts...> and convert<Ts...> accept the same rows and produce the same values (passed to the constructor / tied members in order).", "quantifier": "all rows, type lists", "why_tests_cant": "relational over four API entry points", "anchors": ["include/ss/converter.hpp:convert", "include/ss/converter.hpp:convert_object", "include/ss/type_traits.hpp:to_object"]}
{"id": "C19", "title": "The setup is independent of the order of the options", "statement": "Permuting the options of a parser/converter neither changes whether it compiles nor its behaviour.", "quantifier": "all option lists and permutations", "why_tests_cant": "all permutations of arbitrary option packs", "anchors": ["include/ss/setup.hpp:setup", "include/ss/setup.hpp:get_matcher", "include/ss/setup.hpp:get_multiline"]}
{"id": "C20", "title": "A setup compiles exactly when it is unambiguous", "statement": "A setup compiles exactly when its options fit together: quote, escape, each kind of trim, multiline and the error options are given at most once, every character pack is non-empty and NUL stands alone, quote, escape and trim characters are disjoint, trim is not combined with trim_left or trim_right, multiline is given only with quote or escape, and there is no unknown option. It then means what its options say; the one exception is that ignore_header or ignore_empty given twice compiles and has no effect.", "quantifier": "all option lists", "why_tests_cant": "quantifies over all option packs; static_asserts are only exercised for a few packs", "anchors": ["include/ss/setup.hpp:setup", "include/ss/setup.hpp:matches_intersect"]}
{"id": "C21", "title": "Reading lines partitions the input", "statement": "In memory mode the sequence of lines read is exactly the partition of the data after each newline: nothing is lost, duplicated or reordered, for lines of any length, and the internal line buffer is never overrun.", "quantifier": "all data, all buffer sizes left by earlier lines", "why_tests_cant": "growth logic must be right for every length around every capacity", "anchors": ["include/ss/common.hpp:get_line_buffer"]}
{"id": "C22", "title": "File and memory parsing are equivalent", "statement": "Parsing a file and parsing the same bytes from memory produce the same sequence of values, errors and eof.", "quantifier": "all byte sequences, all operation histories", "why_tests_cant": "relational over two readers and all inputs", "anchors": ["include/ss/common.hpp:get_line", "include/ss/parser.hpp:parser"]}
{"id": "C23", "title": "The portable line reader equals POSIX getline", "statement": "The fgets-based replacement used off Unix returns the same lines as getline for data without NUL bytes, for lines of any length.", "quantifier": "all NUL-free data, line lengths around and beyond the 128-byte chunk", "why_tests_cant": "chunk boundaries at every length", "anchors": ["include/ss/common.hpp:get_line_file"]}
{"id": "C24", "title": "Line endings", "statement": "A trailing LF or CRLF (and nothing else) is removed from each line; data with CRLF endings yields the same rows as the same data with LF endings.", "quantifier": "all data", "why_tests_cant": "all combinations of endings, lone CR, last line without ending", "anchors": ["include/ss/parser.hpp:remove_eol"]}
{"id": "C25", "title": "Every row is delivered exactly once, in order", "statement": "get_next called until eof() returns, in order, one result per row of the input: the i-th call reports the conversion of the i-th row; no row is skipped, repeated or merged; eof() becomes true exactly after the last row was delivered. A row counts up to its first NUL byte, if it contains one.", "quantifier": "all inputs (without NUL bytes if multiline is set), all type lists per call", "why_tests_cant": "history-quantified over whole inputs", "anchors": ["include/ss/parser.hpp:get_next", "include/ss/parser.hpp:read_line", "include/ss/parser.hpp:reader"]}
{"id": "C26", "title": "A bad row does not affect later rows", "statement": "Whatever error a row produces, the following rows are parsed as if the bad row had been absent.", "quantifier": "all inputs and positions of bad rows (without NUL bytes if multiline is set)", "why_tests_cant": "all preceding histories", "anchors": ["include/ss/parser.hpp:get_next", "include/ss/parser.hpp:update"]}
{"id": "C27", "title": "Empty lines", "statement": "With ignore_empty exactly the lines without content are skipped and all other lines are delivered; without it an empty line is delivered as a row without columns (an error for every type list).", "quantifier": "all inputs (without NUL bytes if multiline is set)", "why_tests_cant": "all placements of blank lines, LF and CRLF, start/middle/end", "anchors": ["include/ss/parser.hpp:read_next"]}
{"id": "C28", "title": "ignore_header skips exactly the first line", "statement": "With ignore_header the rows delivered are those of the input without its first line; if nothing follows the header, eof() is false after construction, the first get_next reports an error, and eof() is true from then on.", "quantifier": "all inputs", "why_tests_cant": "all inputs including header-only", "anchors": ["include/ss/parser.hpp:parser"]}
{"id": "C29", "title": "line() and position()", "statement": "After each row line() is the number of physical lines consumed so far and position() is the byte offset where the next row starts.", "quantifier": "all inputs with multiline rows", "why_tests_cant": "all histories", "anchors": ["include/ss/parser.hpp:line", "include/ss/parser.hpp:position"]}
{"id": "C30", "title": "Reading past the end is an error and stays at the end", "statement": "Calling get_next when eof() is true delivers no value, and eof() stays true however often it is repeated; the first such call reports 'read on end of file', and so do all later ones if the last row was read without error or errors are thrown. (If the last row was in error and errors are kept as strings, every second later call repeats that error with the next line number.)", "quantifier": "all inputs, any number of extra calls", "why_tests_cant": "history-quantified", "anchors": ["include/ss/parser.hpp:get_next", "include/ss/parser.hpp:handle_error_eof_reached"]}
{"id": "C31", "title": "Tables survive writing and multiline parsing", "statement": "Any table of NUL-free strings written with quoted fields, doubled quotes and newline row ends is parsed back, with quote and multiline configured, to exactly the same table, including fields containing newlines, CRLF, delimiters and quotes.", "quantifier": "all tables (any rows, columns, contents)", "why_tests_cant": "end-to-end property over all contents", "anchors": ["include/ss/parser.hpp:parse", "include/ss/parser.hpp:append_next_line_to_buffer", "include/ss/splitter.hpp:resplit"]}
{"id": "C32", "title": "Multiline limit", "statement": "With multiline_restricted<N> a row is accepted if it spans at most N additional physical lines, and otherwise reports 'multiline limit reached' after consuming exactly N additional lines.", "quantifier": "all N, all inputs", "why_tests_cant": "all limits and row lengths", "anchors": ["include/ss/parser.hpp:multiline_limit_reached", "include/ss/parser.hpp:parse"]}
{"id": "C33", "title": "Escaped line ends continue the row", "statement": "With escape and multiline a line is continued exactly when it ends in an odd number of escape characters (outside of quotes: and the newline becomes part of the field).", "quantifier": "all lines", "why_tests_cant": "all run lengths", "anchors": ["include/ss/parser.hpp:escaped_eol", "include/ss/parser.hpp:parse"]}
{"id": "C34", "title": "Header names are the columns of the first line", "statement": "raw_header() is the first line without its ending, header() its columns; field_exists(f) holds exactly for those names; headers with duplicate names are refused by every one of these calls and by use_fields, with the message naming the duplicate (with throw_on_error: until the first refusal, after which the names before the duplicate are the header).", "quantifier": "all inputs, all names", "why_tests_cant": "all headers", "anchors": ["include/ss/parser.hpp:raw_header", "include/ss/parser.hpp:header", "include/ss/parser.hpp:field_exists", "include/ss/parser.hpp:split_header_data"]}
{"id": "C35", "title": "use_fields selects columns by name", "statement": "After use_fields(f1..fk) each row's values are the conversions of the columns whose header is f1..fk, in that order, whatever the column order in the file; rows with a different number of columns than the header are errors; if line() is 0 when the selection is made (no row was read and no blank lines were skipped), the header line is not delivered.", "quantifier": "all headers, selections, rows", "why_tests_cant": "all permutations and sub-selections", "anchors": ["include/ss/parser.hpp:use_fields", "include/ss/converter.hpp:column_position", "include/ss/converter.hpp:set_column_mapping"]}
{"id": "C36", "title": "Invalid field selections are rejected without effect", "statement": "use_fields with an unknown name, a repeated name, or no name reports an error and leaves the mapping and the position unchanged.", "quantifier": "all headers and argument lists", "why_tests_cant": "all argument lists", "anchors": ["include/ss/parser.hpp:use_fields", "include/ss/parser.hpp:header_index"]}
{"id": "C37", "title": "try_next / or_else: first successful alternative wins on the same row", "statement": "A chain try_next<..>().or_else<..>()... consumes exactly one row; the alternatives are tried in order on that same row; at most one value is set: that of the first alternative whose conversion (and check) succeeds; later alternatives and callbacks are not run.", "quantifier": "all rows, all chains, all callbacks", "why_tests_cant": "double-buffering must keep the row intact for any chain", "anchors": ["include/ss/parser.hpp:try_next", "include/ss/parser.hpp:or_else", "include/ss/parser.hpp:try_same", "include/ss/parser.hpp:try_convert_and_invoke"]}
{"id": "C38", "title": "Checks and on_error", "statement": "A callback returning false makes the alternative fail; on_error is invoked exactly when the parser is invalid at that point of the chain.", "quantifier": "all callbacks and rows", "why_tests_cant": "all chains", "anchors": ["include/ss/parser.hpp:try_invoke", "include/ss/parser.hpp:on_error"]}
{"id": "C39", "title": "Iterating equals repeated get_next", "statement": "iterate<Ts...>() / iterate_object visits exactly the values repeated get_next<Ts...>() until eof would return, in the same order, and ends.", "quantifier": "all inputs", "why_tests_cant": "termination and equality over all inputs", "anchors": ["include/ss/parser.hpp:iterable", "include/ss/parser.hpp:iterator"]}
{"id": "C40", "title": "Moving a parser preserves its behaviour", "statement": "A move-constructed or move-assigned parser behaves from then on exactly as the original would have, and the moved-from object can be destroyed without freeing anything twice.", "quantifier": "all reachable parser states, all later operations", "why_tests_cant": "every field must be transferred, in every state", "anchors": ["include/ss/parser.hpp:reader"]}
{"id": "C41", "title": "The parser is memory safe for arbitrary data", "statement": "For every byte sequence (including NULs) given as data and every sequence of get_next/ignore_next/try_next/header/use_fields/iterate calls, no operation reads or writes outside its buffers, uses freed memory or uninitialised bytes.", "quantifier": "all data, setups, operation histories", "why_tests_cant": "memory safety over all histories", "anchors": ["include/ss/parser.hpp:reader", "include/ss/common.hpp:get_line_buffer", "include/ss/splitter.hpp:splitter"]}
{"id": "C42", "title": "Unusable sources", "statement": "Constructing a parser from a file that cannot be opened or a null buffer yields an invalid parser at eof, with line() and position() 0 (or throws); get_next then reads nothing and reports an error however often it is called.", "quantifier": "all setups, any number of calls", "why_tests_cant": "-- (small state space, listed for completeness of the constructor contract)", "anchors": ["include/ss/parser.hpp:parser", "include/ss/parser.hpp:handle_error_file_not_open", "include/ss/parser.hpp:handle_error_null_buffer"]}
{"id": "C43", "title": "Option packs are filtered, not reordered", "statement": "The type-level helpers used to derive return types keep exactly the elements satisfying the predicate, in order, and count them correctly.", "quantifier": "all packs of types other than std::tuple and std::false_type, all predicates (a pack of a single type that is dropped does not compile)", "why_tests_cant": "packs of any length", "anchors": ["include/ss/type_traits.hpp:filter_if", "include/ss/type_traits.hpp:filter_not", "include/ss/type_traits.hpp:count", "include/ss/type_traits.hpp:tup_cat"]}
{"id": "C44", "title": "Every interleaving of calls answers as specified", "statement": "For any sequence of get_next, try_next/or_else/on_error chains, ignore_next, header queries and use_fields, in any order, each call returns what the document, the selection in force and the position imply (values, error, message, callbacks run), and moves the parser over exactly the row it delivered.", "quantifier": "all setups, all documents (without NUL bytes if multiline is set), and call histories up to the first call left open by the specification", "why_tests_cant": "unboundedly many interleavings of calls; each call depends on the state all earlier calls left behind (buffers, header, mapping, error flags)", "anchors": ["include/ss/parser.hpp:get_next", "include/ss/parser.hpp:try_next", "include/ss/parser.hpp:composite", "include/ss/parser.hpp:use_fields", "include/ss/parser.hpp:field_exists", "include/ss/parser.hpp:ignore_next", "include/ss/parser.hpp:header"]}
{"id": "C45", "title": "Floating point columns are read as a whole", "statement": "Converting a column to float, double or long double succeeds iff the whole column is a number of that type, and delivers that number; text after the number, or a number that is only a prefix of the column, is an error. The column's length does not matter, in the fast_float build and in the strtod build.", "quantifier": "all columns and all number grammars the underlying from_chars/strtod may implement", "why_tests_cant": "unboundedly many texts and lengths; the strtod build copies into a fixed buffer or a heap string depending on the length", "anchors": ["include/ss/extract.hpp:to_num"]}
{"id": "C46", "title": "string_views stay valid until the next row is read", "statement": "std::string_view values delivered by get_next or a try_next/or_else chain keep showing exactly the text of their columns while the user calls ignore_next, header, raw_header, field_exists or use_fields, i.e. until the next row is read.", "quantifier": "all setups, data, earlier call histories and later sequences of calls that read no row", "why_tests_cant": "the buffers behind the views are reallocated and swapped depending on line lengths and on the whole history of calls", "anchors": ["include/ss/parser.hpp:get_next", "include/ss/parser.hpp:reader", "include/ss/extract.hpp:extract", "README.md"]}
{"id": "C47", "title": "Memory for lines is bounded by the longest row, not by the amount of data", "statement": "However many rows are read, the line buffers of a parser never hold more than 128 bytes plus twice the longest text that can become one row: one physical line, N+1 lines (but no more than the data) with multiline_restricted<N>, the whole data with unrestricted multiline. The lists of column ranges are bounded the same way. This holds after every sequence of calls. No call forgets a block without freeing it, and an open file stays open until the parser is destroyed.", "quantifier": "all setups, delimiters, documents, sources (file, portable line reader, memory) and call sequences", "why_tests_cant": "the buffers are resized, swapped and concatenated depending on every line read before; a leak or a growth per row shows only on long enough data", "anchors": ["include/ss/common.hpp:get_line_buffer", "include/ss/common.hpp:get_line_file", "include/ss/parser.hpp:reader", "include/ss/parser.hpp:realloc_concat"]}
{"id": "C48", "title": "Nothing is thrown unless throw_on_error is set", "statement": "With a setup that does not contain ss::throw_on_error, no constructor, get_next, get_object, try_next/or_else chain, ignore_next, header, field_exists, use_fields, iterate loop, converter or splitter call throws an exception (out of memory and user callbacks aside).", "quantifier": "all setups without throw_on_error, all data, arguments, object states and call sequences", "why_tests_cant": "an exception can come from any error path of any call; every one of them would have to be reached in every setup", "anchors": ["include/ss/parser.hpp", "include/ss/converter.hpp", "include/ss/splitter.hpp", "include/ss/setup.hpp:throw_on_error"]}
{"id": "C49", "title": "Rows before a cut do not depend on what follows", "statement": "If data is extended by any further bytes (a log that grows; or, the other way round, a file whose end is missing because the writer crashed or the copy was cut off), every row before the last one, and also the last one if it ends in a line feed and was not given up for want of data, is reported as before: the same values or an error, the same line number of the row; eof(), line() and position() after it are the same too, unless the next row is the one that was cut.", "quantifier": "all setups, documents, continuations, sources and requested types", "why_tests_cant": "ranges over every document and every cut point, including cuts inside quotes, escapes and between carriage return and line feed", "anchors": ["include/ss/parser.hpp:read_line", "include/ss/parser.hpp:reader", "include/ss/common.hpp:get_line_buffer"]}
{"id": "C50", "title": "Tables of typed values read back, also by column name", "statement": "Every table of values (integers in range, booleans, characters, strings, optionals of them) written as CSV in any of the supported ways (fields quoted, escaped or plain; LF, CRLF or no end after the last row) is read back as the same values by get_next with these types, and eof() becomes true with the last one; if the first row is a header of distinct names without line ends, header() returns the names and after use_fields(names...) the calls deliver exactly the columns with these names in that order. If other types are asked for, each call reports exactly what converting the fields of its row gives.", "quantifier": "all setups, types, tables of any size, ways to write them, selections of columns", "why_tests_cant": "composition of reader, splitter, converter and header mapping over every table", "anchors": ["include/ss/parser.hpp:get_next", "include/ss/parser.hpp:use_fields", "include/ss/converter.hpp:convert", "include/ss/extract.hpp:extract", "include/ss/splitter.hpp:split"]}
{"id": "C51", "title": "Running out of memory for a line is never silent and leaves a destroyable parser", "statement": "Whatever allocations for a line are refused, every constructor and every call of a parser either has exactly the effect and reply it has with enough memory, or std::bad_alloc leaves it; then the earlier replies were the right ones, the destructor frees each of the parser's blocks exactly once, none of the blocks it had before the call was forgotten, and a file that was open is still open for it to close. std::bad_alloc only comes if the system refused a request of at most 128 bytes plus twice the longest possible row (or errno was stale), so with that much memory it never comes.", "quantifier": "all setups, documents, sources, call sequences and schedules of refused allocations", "why_tests_cant": "every allocation of every call in every setup would have to be made to fail at every size", "anchors": ["include/ss/common.hpp:strict_realloc", "include/ss/common.hpp:get_line", "include/ss/common.hpp:get_line_file", "include/ss/common.hpp:get_line_buffer", "include/ss/parser.hpp:realloc_concat", "include/ss/parser.hpp:~reader"]}
{"id": "C52", "title": "Exceptions thrown by user code do not damage the parser, and one ignore_next() puts it back in step", "statement": "Whatever an overload of extract, a validator or a type's constructor throws while a row is converted, and whatever a callback or error handler throws: it is what comes out of the first column, in order, that throws (columns after one that cannot be converted are not looked at); an ss::exception under throw_on_error comes out with file and line in front and is like any failed row; any other exception comes out of get_next unchanged, no buffer or file is lost, eof() says false, and one call of ignore_next() brings the parser exactly to where it would be after that row, with the same line(), position() and the same replies to everything after. After an exception from a callback the next row follows without more ado. User code that throws nothing makes no difference.", "quantifier": "all setups, documents, sources, call sequences, types, and behaviours of the user code", "why_tests_cant": "every conversion and callback of every call in every setup would have to be made to throw, and all later behaviour compared", "anchors": ["include/ss/parser.hpp:get_next", "include/ss/parser.hpp:try_next", "include/ss/parser.hpp:composite::or_else", "include/ss/parser.hpp:composite::on_error", "include/ss/parser.hpp:ignore_next", "include/ss/converter.hpp:extract_one"]}
{"id": "C53", "title": "No size or line counter of the parser overflows", "statement": "After any sequence of calls, every number the parser keeps in a size_t - the sizes of its line buffers, the length of the row waiting, the line number - is at most 128 plus twice the longest row, or the number of lines plus the number of calls plus two; position() never points past the data and, for data in memory, never before it. So with less than 2^61 bytes and calls nothing wraps around on a 64 bit machine. The exception is position() of a file: each attempt to read past its end takes one away.", "quantifier": "all setups, delimiters, documents, sources and call sequences", "why_tests_cant": "no test can read 2^64 bytes or try every history of buffer growth, swaps and reads past the end", "anchors": ["include/ss/common.hpp:get_line", "include/ss/common.hpp:get_line_buffer", "include/ss/parser.hpp:reader", "include/ss/parser.hpp:line", "include/ss/parser.hpp:position", "include/ss/parser.hpp:realloc_concat"]}
{"id": "C54", "title": "A validator stands for the type its ss_valid takes", "statement": "A class with one accessible, non-static, non-template ss_valid whose first parameter is X, const X, X&, const X& or X&& (function optionally const and & or && qualified, not noexcept, volatile or variadic) is a validator for columns of type X, and of no other type; the type returned for a row has X in its place. Every other type without such a member is a column type itself, including classes whose ss_valid is overloaded, a template or private. The row type of a pack is: void elements dropped, every validator replaced by what it checks, a single element not wrapped in a tuple.", "quantifier": "all classes, signatures of ss_valid and packs of element types", "why_tests_cant": "the deduction is template metaprogramming over an open set of user types; a test instantiates a handful of signatures", "anchors": ["include/ss/function_traits.hpp:function_traits", "include/ss/function_traits.hpp:member_wrapper", "include/ss/function_traits.hpp:INIT_HAS_METHOD", "include/ss/converter.hpp:no_validator", "include/ss/converter.hpp:no_void_validator_tup"]}
{"id": "C55", "title": "Splitting takes time linear in the length of the line", "statement": "Under every setup that compiles, split() of a line of n characters with a delimiter of k characters looks at or moves at most (k+10)(n+1) characters, whatever was split before and whatever lies behind the line in memory. A row that is read in several pieces because of open quotes is not gone through again: the split and all resplits of its pieces together look at or move at most (k+10)(N+p) characters, N being the length of the whole row and p the number of pieces. Without quoting, escaping and trimming and with a one-character delimiter the count is exactly 2n+1.", "quantifier": "all setups, delimiters, lines, histories of the splitter, contents of memory behind the line, and all ways of cutting a quoted row into lines", "why_tests_cant": "a benchmark measures some lines; that no line (long runs of trim characters, quotes, escapes, partial delimiters, many continuation lines) makes the splitter go back and read again has to be shown for all of them", "anchors": ["include/ss/splitter.hpp:split", "include/ss/splitter.hpp:resplit", "include/ss/splitter.hpp:match_delimiter", "include/ss/splitter.hpp:read_quoted", "include/ss/splitter.hpp:shift_and_set_current"]}
{"id": "C56", "title": "How callbacks of try_next and or_else are called, and what they may do", "statement": "A callback of try_next, try_object, or_else or or_object is called exactly once if its conversion succeeded and never otherwise. If it has fixed parameters it gets what they ask for: nothing, the whole value, or its elements in order; anything else does not compile. What it writes through its references is what the composite holds. It may use the parser: the calls it makes are answered by the rows after the current one, each once and in order, and the parser is then where those calls left it. A callback that only looks behaves the same in all of these forms. Chaining never shows moved-from values. Not guaranteed, and refuted: a callable whose parameters all have defaults (or a pack) gets the values; a value survives a callback that reads on to a bad row; a kept composite keeps its values when or_else is called on it.", "quantifier": "all signatures and callback bodies (as programs of calls on the parser), type lists, rows, histories of calls and setups", "why_tests_cant": "the tests use a handful of lambdas; which overload of the calling convention applies, and what a callback that uses or changes things does to the session, ranges over all callables and all sessions", "anchors": ["include/ss/parser.hpp:try_invoke", "include/ss/parser.hpp:try_invoke_impl", "include/ss/parser.hpp:composite", "include/ss/parser.hpp:try_convert_and_invoke", "include/ss/parser.hpp:composite_with", "README.md"]}
{"id": "C57", "title": "Reading a document takes work linear in its size", "statement": "Opening a document in memory or a POSIX file and calling get_next() on it any number of times, with any types and in any error mode, stores, looks at, moves or takes from the file at most 16(k+100)(m+1)(N+calls+1) bytes: N is the size of the document, k the length of the delimiter, and m the number of further lines a row may have (0 without multiline, the limit of ss::multiline_restricted). With the other calls in between (chains of try_next and or_else, ignore_next, header, field_exists, use_fields, raw_header, as far as they are specified) it is the same with H*h more in the last factor, for H calls about the header and a header line of h bytes. Reading one line costs at most 3L+128 (memory) or 2L+2 (file) for a line of L bytes, whatever follows it. Not guaranteed, and refuted: linear work with the portable reader of files, which measures the line again for each piece of 127 bytes. Without a limit on the lines of a row the bound is quadratic.", "quantifier": "all setups, delimiters, documents, type lists, numbers of calls, states of the line buffers, and growth policies of getline", "why_tests_cant": "a benchmark times some files; that no document (many empty lines, long lines, quotes left open, rows that fail, buffers handed from row to row) makes the reader go over bytes again and again has to be shown for all of them", "anchors": ["include/ss/common.hpp:get_line_buffer", "include/ss/common.hpp:get_line_file", "include/ss/parser.hpp:read_next", "include/ss/parser.hpp:parse", "include/ss/parser.hpp:realloc_concat", "include/ss/parser.hpp:append_next_line_to_buffer", "include/ss/parser.hpp:get_next", "include/ss/parser.hpp:strict_split", "include/ss/parser.hpp:use_fields"]}
{"id": "C58", "title": "A setup matters only through the roles it gives to characters that occur", "statement": "If every character of a text has the same role (quote, escape, trimmed on the left, trimmed on the right, or none) in two setups that otherwise agree, then both setups split a line of it into the same fields or report the same error, see the same rows in the document, and their parsers show the same values, errors, eof() and line() call by call. Turning multiline on (with any limit) changes nothing for a document each line of which splits by itself and does not end in an odd number of escape characters. A document none of whose characters has a role is read as by a setup without quote, escape, trim and multiline.", "quantifier": "all pairs of setups that compile, all delimiters, lines, documents, types asked for, and states the splitters have reached; for sessions, all sequences of calls", "why_tests_cant": "that an option has no effect on data that does not use it is a statement about all data and all setups: a test compares two setups on a few files", "anchors": ["include/ss/setup.hpp:matcher", "include/ss/splitter.hpp:split_impl_select_delim", "include/ss/splitter.hpp:match_delimiter", "include/ss/parser.hpp:reader::read_next", "include/ss/parser.hpp:escaped_eol", "include/ss/parser.hpp:unterminated_quote"]}
{"id": "C59", "title": "Reading one document after another", "statement": "If a document consists of whole lines (it is empty or ends in a line feed) and its last row does not miss its end (an open quote or escaped line end), then the rows of this document followed by another are the rows of the first and then those of the second, n lines further down (n: the number of lines of the first): a parser on both shows the values and errors a parser on the first shows, and then what a parser on the second shows, with eof() at the end of the second, line() n higher and position() higher by the size of the first. So for any number of files one after another. ignore_header is about the first line of the whole only.", "quantifier": "all setups, delimiters, pairs (lists) of documents, sources, and types asked for call by call", "why_tests_cant": "state carried from row to row (buffers, the line read ahead, counters, quotes, blank lines skipped at the seam) could leak over the seam for some pair of documents; a test tries a few pairs", "anchors": ["include/ss/parser.hpp:get_next", "include/ss/parser.hpp:reader::read_next", "include/ss/parser.hpp:read_line", "include/ss/parser.hpp:line", "include/ss/parser.hpp:position"]}
{"id": "C60", "title": "The error mode does not change what is read", "statement": "Parsers that differ only in the error mode (none, string_error, throw_on_error) see the same rows; each call of get_next() gives the same values under both, or fails under both (an error or an exception); eof(), line() and position() are the same after it. For a row that splits, or is incomplete, the text thrown by throw_on_error is the text error_msg() gives under string_error, but for the line number, which counts the blank lines skipped after the row. The same holds of whole sessions (rows, chains of alternatives, skipping, header queries and field selections, in any order), except for a header with a repeated name, which throw_on_error remembers differently.", "quantifier": "all setups, pairs of error modes, delimiters, documents, sources, types asked for call by call; for sessions, all sequences of calls", "why_tests_cant": "the modes take different paths through splitter, converter and parser (an exception leaves a row half way); that the parser is left in the same place after every failure, for every row and every history, is a statement about all of them", "anchors": ["include/ss/parser.hpp:get_next", "include/ss/parser.hpp:handle_error_invalid_conversion", "include/ss/parser.hpp:decorate_rethrow", "include/ss/splitter.hpp:handle_error_unterminated_quote", "include/ss/converter.hpp:handle_error_invalid_conversion", "include/ss/setup.hpp:throw_on_error"]}
{"id": "C61", "title": "The parser reads one line ahead and no more", "statement": "When the constructor or a call of get_next() returns, exactly the data up to and including the first line of the next row has been taken from the source (all of it if there is no next row), whether or not the row was read without error: position() is where that line begins, and what follows it was not touched. With rows of one line and nothing skipped, i calls take i+1 lines. The same holds after any mix of header(), use_fields(), ignore_next() and try_next() chains.", "quantifier": "all setups, delimiters, documents, sources, growth policies of getline, and types asked for call by call, successful or not", "why_tests_cant": "tests read whole files from disk; that no row (quoted or escaped line ends, blank lines, failures, the multiline limit) makes the parser wait for or drop further input must hold for every document and every point in it", "anchors": ["include/ss/parser.hpp:get_next", "include/ss/parser.hpp:read_line", "include/ss/parser.hpp:reader::read_next", "include/ss/parser.hpp:append_next_line_to_buffer", "include/ss/parser.hpp:position", "include/ss/common.hpp:get_line_file"]}
{"id": "C62", "title": "A more permissive type never loses a row and keeps the values", "statement": "If the types asked for are replaced, column by column, by more permissive ones (an integer type by one that holds all its numbers, any type by std::string, by an optional of it or of a more permissive type, by a variant that begins with it or has further alternatives; a restriction dropped or loosened), then every row that was read before is still read, and each value is the old one: the same number, the text it was read from, or it inside the optional or the variant. Rows keep their place: eof() and line() are the same after each call. Other calls in between (header(), use_fields(), ignore_next(), try_next() chains) are answered alike.", "quantifier": "all setups, delimiters, lines and documents, converter histories, types and their more permissive replacements, chosen call by call", "why_tests_cant": "the permissiveness of a type is a statement about all texts at once (signs, leading zeros, limits of 8 to 64 bit types, empty fields) and about every document a row may stand in", "anchors": ["include/ss/extract.hpp:extract", "include/ss/extract.hpp:to_num", "include/ss/converter.hpp:extract_one", "include/ss/converter.hpp:convert_impl", "include/ss/parser.hpp:get_next"]}
{"id": "C63", "title": "Characters count only by their role", "statement": "If every character of the data is replaced by one that has the same role (quote, escape, trimmed left, trimmed right, a place in the delimiter, newline, carriage return, NUL, or none of these) in a second setup with a second delimiter, then the second parser finds the same rows and columns: the same line(), eof() and position(), errors at the same rows and positions, and text values that are the old ones with their characters replaced. In particular plain characters may be replaced at will, also several by one; and renaming the characters one-to-one, with NUL kept, renames the options of a setup into a setup that compiles exactly if the first one does.", "quantifier": "all setups, delimiters, lines and documents, splitter histories, maps on characters, and text types asked for call by call", "why_tests_cant": "that no character has a meaning of its own (no comma, quote or space is built in) is a statement about all 256 characters in every position of every document", "anchors": ["include/ss/splitter.hpp (match, match_delimiter, read_normal, read_quoted, trim_*)", "include/ss/setup.hpp (matcher, setup)", "include/ss/parser.hpp (reader::read_next, escaped_eol, unterminated_quote)"]}
{"id": "C64", "title": "Reading by name does not depend on the layout of the document", "statement": "After use_fields(names...) the values of a row depend only on its cells in the named columns: two documents, with other columns, another order of columns, another delimiter or another setup, whose rows hold the same cells in these columns answer the calls of get_next with the same values, or with the same error about the same argument. Asking for the names (with their types) in another order accepts the same rows and gives every name the value it had; asking for fewer names never loses a row and does not change the values of the names that are left.", "quantifier": "all setups, delimiters, documents with a header of distinct names, selections, types asked for call by call, and rows", "why_tests_cant": "the claim compares every pair of documents that agree on the selected columns, for every selection and every type", "anchors": ["include/ss/parser.hpp (use_fields, header_index, get_next)", "include/ss/converter.hpp (set_column_mapping, tuple_position, convert)"]}
{"id": "C65", "title": "Editing some rows leaves the other rows alone", "statement": "If a part of a document that consists of whole lines (it is empty or ends in a line feed, as does what precedes it) is replaced by another such part, and neither the last row before it nor the last row of the old or new part misses its end (an open quote or escaped line end), then the rows before the part give the same values and errors, with the same eof(), line() and position(); the rows after it give the same values and errors and the same eof(), and their line() and position() differ by the difference in lines and bytes of the parts. What the part itself contains (bad values, unterminated rows inside, empty lines, another number of rows) makes no difference. So also if rows are inserted or deleted.", "quantifier": "all setups, delimiters, documents, replaced and replacing parts, sources, and types asked for call by call", "why_tests_cant": "an error in one row, or its size, could leak into the following rows through the buffers, the shift offsets, the line read ahead or the counters for some part and some document; a test tries a few", "anchors": ["include/ss/parser.hpp:get_next", "include/ss/parser.hpp:reader::read_next", "include/ss/splitter.hpp:split", "include/ss/parser.hpp:line", "include/ss/parser.hpp:position"]}
{"id": "C66", "title": "Iterators of one parser share a single pass and keep what they read", "statement": "A program may hold any number of iterators from iterate<Ts...>() / iterate_object<T, Ts...>(), made by begin(), end(), copying and it++, and use them in any order together with eof() and get_next. begin(), ++it and it++ on an iterator that is not past the end, and get_next, each read the document's next row: the n-th read by whichever of them gives the n-th row's values or error. Every iterator keeps the object of the row it read, also when others advance, when its own advance throws, and when it goes past the end; it++ gives an iterator that holds the old object. An iterator goes past the end when it is advanced at eof, and stays there; begin() of a parser at eof holds a default object. Two iterators are equal exactly if they are the same object or both past the end.", "quantifier": "all setups, delimiters, documents, types, ways of asking (pack, tuple, tied, object), and all programs of iterator operations of any length", "why_tests_cant": "the claim ranges over all interleavings of operations on any number of iterators, on every document", "anchors": ["include/ss/parser.hpp:iterable::iterator", "include/ss/parser.hpp:iterate", "include/ss/parser.hpp:iterate_object", "include/ss/parser.hpp:get_next"]}
{"id": "C67", "title": "The parser and the converter agree", "statement": "For every row of a document, get_next<Ts...>() gives the values that convert<Ts...>(text, delimiter) of an ss::converter with the same options gives for the text of the row (joined from its lines in a multiline setup), whatever that converter did before; the parser reports an error exactly when the converter does, with the converter's message after its own prefix (file name and line). A row without text is refused by both.", "quantifier": "all setups, delimiters, documents, rows, types asked for call by call, and histories of the converter", "why_tests_cant": "the claim relates two classes on every row of every document and every history; a test compares a few", "anchors": ["include/ss/parser.hpp:get_next", "include/ss/parser.hpp:reader::parse", "include/ss/converter.hpp:convert", "include/ss/converter.hpp:convert_impl"]}
{"id": "C68", "title": "Skipping a row is reading it and discarding it", "statement": "A program that goes through the rows of a document and calls ignore_next() instead of get_next<Ts...>() for some of them gets for the other rows exactly what it would get if it had read all of them: the same values or an error both times, with the right line numbers; ignore_next() returns true, and eof() is true exactly after the last row. Calling ignore_next() first is the same as ss::ignore_header. This holds if the skipped rows are one line long and not the last row; of a row of several lines, ignore_next() skips the first line only, and the rest is then read as a row.", "quantifier": "all setups, delimiters, documents, choices of rows to skip, and types asked for call by call", "why_tests_cant": "tests skip a few rows of a few documents; the claim is about every choice of rows, with blank lines, line ends and multiline rows between them", "anchors": ["include/ss/parser.hpp:ignore_next", "include/ss/parser.hpp:get_next", "include/ss/parser.hpp:reader::read_next", "README.md:118", "README.md:399"]}
