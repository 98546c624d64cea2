{"id": "C01", "title": "Appending a code point writes its standard UTF-8 form", "statement": "append_code_point / prepend_code_point / insert_code_point on a std::u8string accept every Unicode scalar value and add exactly the bytes the Unicode standard defines for it; values that are not scalar values are refused with invalid_code_point and the string is left unchanged.", "quantifier": "every 32-bit code point value, every string, every index", "why_tests_cant": "1 112 064 scalar values times all strings and indexes; a test picks a few code points.", "anchors": ["api/src/cmp/unicode/algorithms.ipp: insert_code_point, append_code_point, prepend_code_point", "api/src/cmp/unicode/examiners.ipp: is_code_point_valid"]}
{"id": "C02", "title": "Appending a code point writes its standard UTF-16 / UTF-32 form", "statement": "append/prepend/insert_code_point on a std::u16string, std::u32string or std::wstring add exactly the standard UTF-16 code unit(s) or UTF-32 code unit of every Unicode scalar value.", "quantifier": "every scalar value, every string, every index", "why_tests_cant": "The whole code space and every insertion point cannot be enumerated by examples.", "anchors": ["api/src/cmp/unicode/algorithms.ipp: insert_code_point"]}
{"id": "C03", "title": "Insertion only adds text: the rest of the string is preserved", "statement": "insert_code_point(s, cp, i) with i <= size leaves the units before i and from i on unchanged and in order around the inserted units, also when a code point needs several units; with i > size it throws out_of_range and changes nothing.", "quantifier": "every string kind, string, code point and index", "why_tests_cant": "Multi-step insertion (one unit at a time with a moving index) must be right at every index of every string.", "anchors": ["api/src/cmp/unicode/algorithms.ipp: insert_code_point"]}
{"id": "C04", "title": "The code point validity test accepts exactly the Unicode scalar values", "statement": "is_code_point_valid(c) is true exactly when c <= 0x10FFFF and c is not in 0xD800..0xDFFF.", "quantifier": "every 32-bit value", "why_tests_cant": "2^32 inputs; the existing test tries a handful.", "anchors": ["api/src/cmp/unicode/examiners.ipp: is_code_point_valid, is_surrogate"]}
{"id": "C05", "title": "Code unit and whitespace classification agree with the Unicode standard", "statement": "Every byte is exactly one of standalone, leading, trailing or never-used; leading/trailing surrogate tests are exactly the ranges D800-DBFF and DC00-DFFF; is_whitespace is true exactly on the code points with the Unicode White_Space property.", "quantifier": "every code unit and every code point", "why_tests_cant": "Whole code space; boundary mistakes are invisible to a few samples.", "anchors": ["api/src/cmp/unicode/examiners.ipp: is_standalone_byte, is_leading_byte, is_trailing_byte, is_leading_surrogate, is_trailing_surrogate, is_surrogate, is_whitespace"]}
{"id": "C06", "title": "Iterating well-formed UTF-8 by code point yields exactly its code points", "statement": "A range-for over by_code_point of the UTF-8 encoding of any sequence of scalar values visits exactly that sequence, in order, and stops at the end.", "quantifier": "every finite sequence of Unicode scalar values", "why_tests_cant": "Unbounded strings over more than a million characters.", "anchors": ["api/src/cmp/unicode/by_code_point.cpp: by_code_point<char8_t>::const_iterator", "api/src/cmp/unicode/impl/impl.cpp: initialize_utf8_sequence"]}
{"id": "C07", "title": "Iterating well-formed UTF-16 by code point yields exactly its code points", "statement": "A range-for over by_code_point of the UTF-16 encoding of any sequence of scalar values visits exactly that sequence, in order, and stops at the end.", "quantifier": "every finite sequence of Unicode scalar values", "why_tests_cant": "The only UTF-16 iteration test uses a string without surrogate pairs.", "anchors": ["api/src/cmp/unicode/by_code_point.cpp: by_code_point<char16_t>::const_iterator", "api/src/cmp/unicode/impl/impl.cpp: initialize_utf16_sequence"]}
{"id": "C08", "title": "Reverse iteration yields the code points in reverse order", "statement": "Iterating from crbegin() to crend() over the UTF-8, UTF-16 or UTF-32 encoding of any sequence of scalar values visits exactly that sequence in reverse.", "quantifier": "every finite sequence of Unicode scalar values, each encoding", "why_tests_cant": "Stepping back over every mix of sequence lengths cannot be enumerated.", "anchors": ["api/src/cmp/unicode/by_code_point.cpp: const_iterator::retreat, crbegin, crend"]}
{"id": "C09", "title": "Iterator arithmetic counts code points", "statement": "On well-formed text, advancing an iterator by n (it += n, it + n) moves n code points forward, it -= n moves n code points back, and each undoes the other.", "quantifier": "every well-formed text, every boundary position, every in-range n", "why_tests_cant": "All positions and all offsets of all texts.", "anchors": ["api/src/cmp/unicode/by_code_point.cpp: operator +=, operator -=, advance, retreat"]}
{"id": "C10", "title": "Iterating arbitrary bytes is memory safe", "statement": "A range-for over by_code_point of any byte or unit string, valid or not, either visits code points or throws invalid_unicode_encoding / iterated_past_end; it never reads outside the string.", "quantifier": "every string of 8-bit, 16-bit or 32-bit units, including truncated and malformed ones", "why_tests_cant": "Out-of-range reads depend on truncation position and are silent in ordinary tests.", "anchors": ["api/src/cmp/unicode/by_code_point.cpp: const_iterator::reference::finish_sequence, const_iterator::finish_sequence"]}
{"id": "C11", "title": "Stepping backwards over arbitrary text is memory safe", "statement": "Reverse iteration over any string, valid or not, never reads outside the string.", "quantifier": "every unit string", "why_tests_cant": "Only malformed prefixes show the failure; a test needs to know which.", "anchors": ["api/src/cmp/unicode/by_code_point.cpp: const_iterator::retreat"]}
{"id": "C12", "title": "validate_string returns the end exactly for well-formed text", "statement": "validate_string never throws and never reads out of bounds; it returns the end iterator exactly when the text is well-formed, and otherwise an iterator at the first offending position.", "quantifier": "every unit string in each encoding", "why_tests_cant": "The set of malformed strings is infinite (overlong forms, surrogates, truncations, out-of-range values).", "anchors": ["api/src/cmp/unicode/algorithms.ipp: validate_string"]}
{"id": "C13", "title": "Converting between encodings preserves the text", "statement": "to_u8string / to_u16string / to_u32string of a well-formed text give the target encoding of the same code points, so converting there and back is the identity.", "quantifier": "every sequence of scalar values and every pair of encodings", "why_tests_cant": "Unbounded texts times pairs of encodings.", "anchors": ["api/src/cmp/unicode/algorithms.ipp: convert_string, to_u8string, to_u16string, to_u32string, to_wstring"]}
{"id": "C14", "title": "starts_with decides the code point prefix relation", "statement": "For well-formed texts, in the same or different encodings, starts_with(a,b) is true exactly when b's code points are a prefix of a's.", "quantifier": "every pair of texts and encodings", "why_tests_cant": "Pairs of unbounded texts.", "anchors": ["api/src/cmp/unicode/algorithms.ipp: starts_with"]}
{"id": "C15", "title": "ends_with decides the code point suffix relation", "statement": "For well-formed texts, in the same or different encodings, ends_with(a,b) is true exactly when b's code points are a suffix of a's.", "quantifier": "every pair of texts and encodings", "why_tests_cant": "Pairs of unbounded texts.", "anchors": ["api/src/cmp/unicode/algorithms.ipp: ends_with"]}
{"id": "C16", "title": "starts_with and ends_with survive arbitrary input", "statement": "starts_with and ends_with, being noexcept, return a value for every input: malformed text neither terminates the program nor reads out of bounds.", "quantifier": "every pair of unit strings", "why_tests_cant": "Failures need particular malformed strings in particular positions.", "anchors": ["api/src/cmp/unicode/algorithms.ipp: starts_with, ends_with", "api/src/cmp/unicode/by_code_point.cpp: finish_sequence"]}
{"id": "C17", "title": "Formatting an integer and parsing it back is the identity", "statement": "For every integer type, value, radix 2..36, sign policy, thousands separator and string type: parse_integer(format_integer(x, f), f) == x.", "quantifier": "every representable value of every integer type, every valid format, every string encoding", "why_tests_cant": "2^64 values times formats.", "anchors": ["api/src/cmp/unicode/formatters.ipp: number_formatter::format_integer", "api/src/cmp/unicode/parsers.ipp: number_parser::parse_integer"]}
{"id": "C18", "title": "Formatted integers are in canonical positional notation", "statement": "format_integer(x, f) is an optional sign ('-' for negative, '+' only for positive values under always_show), followed by the base-radix digits of |x| most significant first without leading zeros, with the chosen separator between groups of three counted from the right and nowhere else.", "quantifier": "every value and every valid format", "why_tests_cant": "Unbounded combinations of values and formats.", "anchors": ["api/src/cmp/unicode/formatters.ipp: number_formatter::format_integer"]}
{"id": "C19", "title": "Every representable integer can be formatted", "statement": "format_integer is defined, without undefined behaviour, for every value of the argument's type including the minimum of a signed type, and prints that value.", "quantifier": "every value of every integer type", "why_tests_cant": "Minimum values of all types and the interaction with promotion rules.", "anchors": ["api/src/cmp/unicode/formatters.ipp: number_formatter::format_integer"]}
{"id": "C20", "title": "Integer parsing accepts exactly optionally signed digit strings", "statement": "With no thousands separator, parse_integer accepts a text exactly when it is an optional sign allowed by the format followed by one or more digits of the radix, and returns its value.", "quantifier": "every text and every valid format", "why_tests_cant": "Infinite language of accepted and rejected texts.", "anchors": ["api/src/cmp/unicode/parsers.ipp: number_parser::parse_integer", "api/src/cmp/unicode/parsers.cpp: check_for_sign"]}
{"id": "C21", "title": "Integer parsing reports the right failure", "statement": "parse_integer throws parse_failed with type empty_input for empty text, digit_character_expected for a character that is not a digit where one is required, multiple_signs for a second sign, thousands_separator_missing for a missing separator, negative_unsigned for a negative text with unsigned output; nothing else is thrown for well-formed text.", "quantifier": "every well-formed text and valid format", "why_tests_cant": "Infinite inputs; which failure wins depends on the scan order.", "anchors": ["api/src/cmp/unicode/parsers.ipp: number_parser::parse_integer", "api/src/cmp/unicode/parsers.cpp: get_next_digit, check_for_sign, check_for_thousands_separator"]}
{"id": "C22", "title": "Integer parsing never returns a wrong value silently", "statement": "If the number written in the text does not fit the output type, parse_integer does not return a value; if it fits, it returns that value without undefined behaviour.", "quantifier": "every digit string of any length, every integer type and radix", "why_tests_cant": "Overflow occurs only for particular lengths and digit patterns.", "anchors": ["api/src/cmp/unicode/parsers.ipp: number_parser::prepend_digit, parse_integer"]}
{"id": "C23", "title": "A format object always holds a usable radix", "statement": "An integer_format or floating_point_format never carries a radix outside 2..36: neither construction nor any sequence of setters can produce one, so formatting always terminates without undefined behaviour.", "quantifier": "every constructor argument and every sequence of setter calls", "why_tests_cant": "Histories of setter calls are unbounded.", "anchors": ["api/src/cmp/unicode/formats.cpp: integer_format, floating_point_format, set_radix", "api/src/cmp/unicode/formatters.ipp: format_integer"]}
{"id": "C24", "title": "Formatting a bool and parsing it back is the identity", "statement": "parse_bool(format_bool(b, f), f) == b whenever the true and false strings are well-formed, non-empty and different; parse_bool accepts no other text.", "quantifier": "every pair of true/false strings and every string encoding", "why_tests_cant": "Unbounded strings.", "anchors": ["api/src/cmp/unicode/formatters.ipp: format_bool", "api/src/cmp/unicode/parsers.ipp: parse_bool"]}
{"id": "C25", "title": "A formatted floating-point number denotes the number", "statement": "With no place limit, format_floating_point(x, f) is the sign, the integral digits and the fractional digits of x: read back as a positional numeral it denotes exactly x.", "quantifier": "every finite value of float, double and long double (IEEE 754 arithmetic), every valid format and string type", "why_tests_cant": "Unbounded set of values; the tests use positive values only.", "anchors": ["api/src/cmp/unicode/formatters.ipp: number_formatter::format_floating_point"]}
{"id": "C26", "title": "Formatting a floating-point number terminates", "statement": "format_floating_point returns for every finite input and every valid format.", "quantifier": "every finite value, every radix 2..36, every place limit", "why_tests_cant": "Non-termination cannot be observed by a finite test.", "anchors": ["api/src/cmp/unicode/formatters.ipp: number_formatter::format_floating_point"]}
{"id": "C27", "title": "Formatting a floating-point number and parsing it back is the identity", "statement": "parse_floating_point(format_floating_point(x, f), f) == x.", "quantifier": "every finite value of every floating-point type and every valid format without place limit", "why_tests_cant": "Unbounded values.", "anchors": ["api/src/cmp/unicode/formatters.ipp: format_floating_point", "api/src/cmp/unicode/parsers.ipp: parse_floating_point"]}
{"id": "C28", "title": "Radix place limits are respected", "statement": "With limit exactly_equal n the output has exactly n digits after the radix character; with up_to n it has at most n; parsing rejects texts that violate the limit.", "quantifier": "every value, every n, every text", "why_tests_cant": "Unbounded n and values.", "anchors": ["api/src/cmp/unicode/formatters.ipp: format_floating_point", "api/src/cmp/unicode/parsers.ipp: parse_floating_point"]}
{"id": "C29", "title": "count_digits counts the digits", "statement": "count_digits(n, r) for n >= 0 and r >= 2 is the length of n written in base r (1 for zero).", "quantifier": "every n and r of every integer type", "why_tests_cant": "All values and radixes.", "anchors": ["api/src/cmp/core/general.ipp: count_digits"]}
{"id": "C30", "title": "Approximate comparison is an equivalence that identifies close values", "statement": "cmp_equal(a,b,k) is reflexive, symmetric and transitive; cmp_not_equal is its negation; values equal to k decimal places compare equal and values closer than 10^-k compare equal.", "quantifier": "every pair/triple of values and every k (exact arithmetic)", "why_tests_cant": "Continuum of values; failures happen at digit boundaries.", "anchors": ["api/src/cmp/core/general.ipp: cmp_equal, cmp_not_equal"]}
{"id": "C31", "title": "Buffered output is transparent", "statement": "For every sequence of write and flush calls on a fresh output resource over a byte container, and every buffer capacity, after a final flush the content is the concatenation of everything written, exactly as with no buffer; before the flush the content is a prefix of it.", "quantifier": "every operation sequence, every block size, every capacity", "why_tests_cant": "Interaction of block sizes with capacity over unbounded histories.", "anchors": ["api/src/cmp/io/output_resource.cpp: write, flush, write_buffered", "api/src/cmp/io/io_buffer.cpp: write", "api/src/cmp/io/impl/ctr_essence.ipp: write_raw"]}
{"id": "C32", "title": "The reported write position is the number of bytes written", "statement": "On an output resource get_position() after any sequence of writes and flushes equals the total number of bytes written, whatever part of it is still buffered; seeking flushes first so no written byte is lost.", "quantifier": "every operation sequence and capacity", "why_tests_cant": "Unbounded histories.", "anchors": ["api/src/cmp/io/impl/ctr_essence.ipp: get_position", "api/src/cmp/io/seekable_output_resource.ipp: set_position"]}
{"id": "C33", "title": "Buffered input is transparent", "statement": "For every sequence of read calls on an input resource over a byte container and every buffer capacity, the bytes returned are those the same calls return without a buffer: consecutive blocks of the content.", "quantifier": "every sequence of block sizes, every capacity, every content", "why_tests_cant": "Failures depend on block sizes relative to capacity and buffer fill state.", "anchors": ["api/src/cmp/io/input_resource.cpp: read, fill, read_buffered", "api/src/cmp/io/impl/ctr_essence.ipp: read_raw"]}
{"id": "C34", "title": "Seeking an input resource behaves as documented", "statement": "set_position(n, begin) makes the next read start n elements from the start, (n, end) n elements before the end, (n, current) n elements after the current position, whatever was read before, for every buffer capacity.", "quantifier": "every history of reads and seeks and every capacity", "why_tests_cant": "Relative seeks interact with how much of the buffer was consumed.", "anchors": ["api/src/cmp/io/seekable_input_resource.ipp: set_position", "api/src/cmp/io/impl/ctr_essence.ipp: set_position_raw"]}
{"id": "C35", "title": "Containers of wide elements can be read through a buffer", "statement": "Reading a std::u16string / u32string / wstring container resource gives its bytes in order for every buffer capacity, as for byte containers.", "quantifier": "every content, capacity and read sequence", "why_tests_cant": "Only element size > 1 with a non-zero capacity shows a difference.", "anchors": ["api/src/cmp/io/impl/ctr_essence.ipp: read_raw, set_position_raw", "api/src/cmp/io/seekable_transfer_resource.ipp: go_back, go_forward"]}
{"id": "C36", "title": "Writing to a container overwrites and extends exactly", "statement": "A write of n bytes at position p replaces bytes p..p+n-1, extends the content only as far as p+n, and touches nothing else; it never writes outside the container.", "quantifier": "every content, position and block", "why_tests_cant": "Partially overlapping writes at every offset and element size.", "anchors": ["api/src/cmp/io/impl/ctr_essence.ipp: write_raw"]}
{"id": "C37", "title": "Mixed reads and writes on one resource are coherent", "statement": "On a read/write container resource every read returns what an unbuffered resource would return: earlier writes are visible, nothing is lost or duplicated, for every interleaving of read, write, flush and seek and every capacity.", "quantifier": "every interleaving of operations and every capacity", "why_tests_cant": "Unbounded histories over a shared buffer.", "anchors": ["api/src/cmp/io/input_resource.cpp", "api/src/cmp/io/output_resource.cpp", "api/src/cmp/io/seekable_io_resource.ipp"]}
{"id": "C38", "title": "A read never reports more than was asked or is there", "statement": "read(data, n) returns at most n and at most the number of remaining bytes, writes nothing beyond the reported bytes, and returns 0 at the end.", "quantifier": "every state of an input resource and every n", "why_tests_cant": "All states and sizes.", "anchors": ["api/src/cmp/io/input_resource.cpp: read_buffered", "api/src/cmp/io/io_buffer.cpp: read", "api/src/cmp/io/impl/ctr_essence.ipp: read_raw"]}
{"id": "C39", "title": "A tied output resource is flushed before input is read", "statement": "After tie(out), every read on the input resource first delivers everything written to out so far.", "quantifier": "every interleaving of writes to out and reads", "why_tests_cant": "Unbounded interleavings.", "anchors": ["api/src/cmp/io/input_resource.cpp: read, tie"]}
{"id": "C40", "title": "Binary values survive a write/read round trip in either endianness", "statement": "A value written with data_output_stream << and read back with data_input_stream >> using the same endianness is unchanged, and the bytes on the resource are in the requested byte order.", "quantifier": "every value of every width, both stream endiannesses, both machine endiannesses", "why_tests_cant": "All values and widths; the tests use the native order only.", "anchors": ["api/src/cmp/io/data_input_stream.ipp: operator >>", "api/src/cmp/io/data_output_stream.ipp: operator <<", "api/src/cmp/io/input_stream.ipp: read", "api/src/cmp/io/general.cpp: invert_endianness"]}
{"id": "C41", "title": "Reversing bytes is an involution that reverses", "statement": "invert_endianness reverses any block of bytes and applying it twice restores the block; get_opposite_endianness is its own inverse.", "quantifier": "every block of every length", "why_tests_cant": "All lengths and contents.", "anchors": ["api/src/cmp/io/general.cpp: invert_endianness", "api/src/cmp/io/general.ipp: get_opposite_endianness"]}
{"id": "C42", "title": "Text written by a text stream is read back unchanged", "statement": "Code points written to a text_output_stream in UTF-8, UTF-16 or UTF-32 with either byte order are read back unchanged by a text_input_stream with the same encoding and byte order (texts without carriage returns).", "quantifier": "every sequence of scalar values, every encoding, both byte orders, both machine byte orders", "why_tests_cant": "Unbounded texts.", "anchors": ["api/src/cmp/io/text_output_stream.ipp: write_code_point_in_utf8/16/32", "api/src/cmp/io/text_input_stream.ipp: read_utf8/16/32_code_point, read_all"]}
{"id": "C43", "title": "A byte order mark selects the byte order of the rest", "statement": "If the resource starts with a byte order mark, read_bom returns U+FEFF and sets the endianness so that the rest is decoded correctly, whatever the stream's initial endianness.", "quantifier": "every text, both byte orders, UTF-16 and UTF-32", "why_tests_cant": "Unbounded texts.", "anchors": ["api/src/cmp/io/text_input_stream.ipp: read_utf16_bom, read_utf32_bom", "api/src/cmp/io/text_output_stream.ipp: write_bom"]}
{"id": "C44", "title": "read_bom on text without a mark returns the first code point", "statement": "If the resource does not start with a byte order mark, read_bom returns the first code point of the text, decoded with the stream's endianness.", "quantifier": "every text not starting with a mark, UTF-16 and UTF-32, both byte orders", "why_tests_cant": "Depends on high bytes of the first code unit.", "anchors": ["api/src/cmp/io/text_input_stream.ipp: read_utf16_bom, read_utf32_bom"]}
{"id": "C45", "title": "Reading lines splits the text at line ends only", "statement": "Repeated read_line returns the lines of the text in order; LF and CR LF end a line; every other character is part of a line.", "quantifier": "every text", "why_tests_cant": "Unbounded texts with arbitrary placement of CR and LF.", "anchors": ["api/src/cmp/io/text_input_stream.ipp: append_line, read_line, read_filtered_code_point"]}
{"id": "C46", "title": "Reading words skips whitespace and loses nothing", "statement": "stream >> string returns the next maximal run of non-whitespace characters; repeated reading yields all words of the text in order.", "quantifier": "every text", "why_tests_cant": "Unbounded texts.", "anchors": ["api/src/cmp/io/text_input_stream.ipp: operator >> (T&)"]}
{"id": "C47", "title": "Numbers written to a text stream separated by spaces are read back", "statement": "Writing integers (or bools) with << separated by a space and reading with >> gives the same values, in every encoding and byte order.", "quantifier": "every list of values, every encoding and byte order", "why_tests_cant": "Unbounded lists and values.", "anchors": ["api/src/cmp/io/text_output_stream.ipp: operator << (T)", "api/src/cmp/io/text_input_stream.ipp: operator >> (T&)"]}
{"id": "C48", "title": "A file only allows the access it was opened for", "statement": "read on a write_only file and write on a read_only file throw invalid_access_mode and have no effect on file content or position.", "quantifier": "every file state and call", "why_tests_cant": "All states.", "anchors": ["api/src/cmp/io/file.cpp: basic_file::read, basic_file::write"]}
{"id": "C49", "title": "File reads tolerate short reads from the operating system", "statement": "If the operating system returns fewer bytes than requested although more follow, a read still returns the file's bytes in order, never more than requested.", "quantifier": "every sequence of OS answers", "why_tests_cant": "Short reads cannot be provoked on ordinary files by a test.", "anchors": ["api/src/cmp/io/impl/unix_like/unix_like_file.cpp: read_block, read_raw"]}
{"id": "C50", "title": "File writes are complete or reported", "statement": "After write calls and flush/close, either all bytes are in the file in order or a shortfall is reported to the caller.", "quantifier": "every sequence of OS answers including short writes and failures", "why_tests_cant": "Short writes (disk full, signals) cannot be scheduled by a test.", "anchors": ["api/src/cmp/io/impl/unix_like/unix_like_file.cpp: write_block, write_raw", "api/src/cmp/io/output_resource.cpp: flush"]}
{"id": "C51", "title": "Reopening a file starts afresh", "statement": "After open() of another path on the same object, reads return that file's bytes from its beginning and is_at_end refers to that file.", "quantifier": "every history before the reopen", "why_tests_cant": "Depends on what was buffered before.", "anchors": ["api/src/cmp/io/impl/unix_like/unix_like_file.cpp: open, close", "api/src/cmp/io/file.cpp: is_at_end"]}
{"id": "C52", "title": "The test module counts every test exactly once", "statement": "run_tests returns the number of test functions that returned false; successes plus failures equals the number of test functions; each failure is recorded with the index and name of its test and the stage after the last completed one.", "quantifier": "every list of test functions and stage counts", "why_tests_cant": "Unbounded lists.", "anchors": ["api/src/cmp/core/test_module.ipp: run_tests, start_test, end_stage, end_test"]}
{"id": "C53", "title": "The message queue is first in first out and empty between tests", "statement": "pop_message returns messages in the order pushed, message::empty when none is left, and no message survives the end of a test.", "quantifier": "every sequence of push and pop", "why_tests_cant": "Unbounded sequences.", "anchors": ["api/src/cmp/core/test_module.ipp: push_message, pop_message, clear_message_queue, end_test"]}
{"id": "C54", "title": "Zero padding gives equal-width decimal indexes", "statement": "The printed test index is the decimal index left-padded with zeros to the width of the number of tests; no index writes outside the string.", "quantifier": "every index and number of tests", "why_tests_cant": "Widths change only at powers of ten; indexes may exceed the count.", "anchors": ["api/src/cmp/core/test_module.ipp: zero_pad, count_digits"]}
{"id": "C55", "title": "The application instance pointer designates a live application", "statement": "app() returns the application constructed last and still alive, or null when there is none.", "quantifier": "every sequence of constructions, moves and destructions", "why_tests_cant": "Unbounded lifetimes.", "anchors": ["api/src/cmp/core/application.cpp: application, get_instance_ptr"]}
{"id": "C56", "title": "Window events reach exactly the window they are for", "statement": "For every sequence of opening, moving and closing windows, an event for a native window is delivered to the window object that currently owns it, closed windows receive nothing, and a close request refused by the handler leaves the window registered.", "quantifier": "every sequence of window operations and events", "why_tests_cant": "Unbounded histories of opens, moves and closes.", "anchors": ["api/src/cmp/desktop_gui/impl/windows/windows_window.cpp: open, close, fix_association, forward_*_event_to_window", "api/src/cmp/desktop_gui/impl/gtk/gtk_window.cpp"]}
{"id": "C57", "title": "A copied or moved opaque container resource is independent", "statement": "After copying or moving an opaque container resource, reads and writes through the new object concern its own content and leave the other object's content alone.", "quantifier": "every content and operation sequence", "why_tests_cant": "Aliasing is only visible under particular interleavings.", "anchors": ["api/include/cmp/io/opaque_container_io_resource.hpp: copy/move operations", "api/src/cmp/io/impl/ctr_essence.ipp: m_content_ptr"]}
{"id": "C58", "title": "Key names identify keys", "statement": "to_u8string(key) is defined for every key and different keys have different names; native key codes translate to the key they denote and every unlisted code to unknown.", "quantifier": "every key and every native key code", "why_tests_cant": "All 2^32 native codes.", "anchors": ["api/src/cmp/desktop_gui/general.cpp: to_u8string", "api/src/cmp/desktop_gui/impl/windows/windows_window.cpp: translate_key_code", "api/src/cmp/desktop_gui/impl/gtk/gtk_window.cpp: translate_key_code"]}
{"id": "C59", "title": "A parsed floating-point text yields the number it denotes", "statement": "parse_floating_point(s, f) for a numeral s of the format (optional sign, integral digits, radix character, fractional digits) is the number s denotes, whenever that number is a value of the type.", "quantifier": "every numeral text of every valid format, every floating-point type", "why_tests_cant": "Unbounded set of texts; the tests parse positive numbers only.", "anchors": ["api/src/cmp/unicode/parsers.ipp: parse_floating_point, append_digit"]}
{"id": "C60", "title": "Invalid radixes in floating-point formats are reported", "statement": "The floating_point_format constructor throws invalid_radix exactly for radixes outside 2..36, and after set_radix with such a radix every format and parse call throws invalid_radix.", "quantifier": "every radix, value and text", "why_tests_cant": "All 2^32 radix values.", "anchors": ["api/src/cmp/unicode/formats.cpp: floating_point_format", "api/src/cmp/unicode/formatters.ipp: format_floating_point", "api/src/cmp/unicode/parsers.ipp: parse_floating_point"]}
{"id": "C61", "title": "The reported position and end are right", "statement": "After any sequence of reads, writes, flushes and seeks on a container resource get_position() is the byte position at which the next read or write takes place, and is_at_end() tells whether that is the end of the content.", "quantifier": "every history, capacity and element size", "why_tests_cant": "Depends on the interplay of buffer and container positions over unbounded histories.", "anchors": ["api/src/cmp/io/impl/ctr_essence.ipp: get_position, is_at_end"]}
{"id": "C62", "title": "go_back and go_forward move the position by the given amount", "statement": "go_back(n) makes the next read or write take place n elements before, go_forward(n) n elements after the current position, for every buffer capacity.", "quantifier": "every history, capacity and amount", "why_tests_cant": "Depends on what is buffered at the time of the call.", "anchors": ["api/src/cmp/io/seekable_transfer_resource.ipp: go_back, go_forward", "api/src/cmp/io/impl/ctr_essence.ipp: set_position_raw"]}
{"id": "C63", "title": "Malformed stream input is refused, never misread", "statement": "Whatever bytes a text_input_stream reads, a code point is returned exactly when its encoding stands at the current place; otherwise read_past_end or invalid_unicode_encoding is thrown. Reading a line, a word or the whole input always ends, with a string or with one of the exceptions read_past_end, invalid_unicode_encoding and invalid_code_point.", "quantifier": "every byte sequence, encoding form, byte order, machine byte order and target string kind", "why_tests_cant": "Every byte sequence is a possible input.", "anchors": ["api/src/cmp/io/text_input_stream.ipp: read_utf8_code_point, read_utf16_code_point, read_utf32_code_point, read_line, read_all, operator >>"]}
{"id": "C64", "title": "A file behaves as a sequence of bytes with a position", "statement": "For every sequence of reads, writes, flushes and seeks on a file object, each call has the effect and the result it would have on the file's bytes and one position; get_position and is_at_end are right throughout; after close the file has exactly the bytes this gives.", "quantifier": "every content, history, buffer capacity, access mode and both platforms", "why_tests_cant": "Buffer state, file offset and read-ahead interact over unbounded histories.", "anchors": ["api/src/cmp/io/file.cpp: read, write, is_at_end", "api/src/cmp/io/impl/unix_like/unix_like_file.cpp", "api/src/cmp/io/impl/windows/windows_file.cpp", "api/src/cmp/io/input_resource.cpp", "api/src/cmp/io/output_resource.cpp"]}
{"id": "C65", "title": "A file object affects its own file only", "statement": "Whatever is called on a file object and however the operating system reacts, no other file changes; and file objects on different files, used in any interleaving, each behave as if alone.", "quantifier": "every history, interleaving and operating system behaviour", "why_tests_cant": "Unbounded interleavings and failures.", "anchors": ["api/src/cmp/io/impl/unix_like/unix_like_file.cpp: open, read_raw, write_raw, close", "api/src/cmp/io/impl/windows/windows_file.cpp"]}
{"id": "C66", "title": "Opening a file opens, creates or fails as requested", "statement": "open returns whether the file is open afterwards. With if_file_not_there fail a file that does not exist is not created and open returns false; with create it is created empty; the bytes of an existing file are never discarded.", "quantifier": "every set of files, mode, platform and operating system behaviour", "why_tests_cant": "Every state of the file system.", "anchors": ["api/src/cmp/io/impl/unix_like/unix_like_file.cpp: open", "api/src/cmp/io/impl/windows/windows_file.cpp: open"]}
{"id": "C67", "title": "A moved file object takes over the file", "statement": "After moving a file object, the new object reads and writes the file as the old one would have, and destroying the old object has no effect.", "quantifier": "every state of the moved object", "why_tests_cant": "Needs the destructor of the moved-from object to run while the other is in use, in every buffer state.", "anchors": ["api/include/cmp/io/impl/unix_like/unix_like_file.hpp: file(file&&)", "api/src/cmp/io/impl/unix_like/unix_like_file.cpp: ~file, close", "api/include/cmp/io/io_buffer.hpp"]}
{"id": "C68", "title": "Seeks to before the beginning of a file are harmless and the same everywhere", "statement": "set_position to a place before the beginning leaves the file at a definite place - the beginning - in every state and on every platform.", "quantifier": "every history, distance, reference and both platforms", "why_tests_cant": "Platform differences and every buffer state.", "anchors": ["api/src/cmp/io/impl/unix_like/unix_like_file.cpp: set_position_raw", "api/src/cmp/io/impl/windows/windows_file.cpp: set_position_raw", "api/src/cmp/io/seekable_io_resource.ipp: set_position"]}
{"id": "C69", "title": "A closed window can be opened again", "statement": "open on a window object without an open window returns true exactly when the native window could be created, and the object then gets that window's events; on an object with an open window it returns false and changes nothing.", "quantifier": "every history of window operations and events", "why_tests_cant": "Depends on how the object lost its window: by a failure, a move or a close.", "anchors": ["api/src/cmp/desktop_gui/impl/windows/windows_window.cpp: open, close", "api/src/cmp/desktop_gui/impl/gtk/gtk_window.cpp: open, close", "api/src/cmp/desktop_gui/impl/macos/macos_window.mm: open, close"]}
{"id": "C70", "title": "An idle turn of the event loop updates every open window once", "statement": "When there is no event to handle, run calls update of every open window's object exactly once, in the order of opening, whatever the update functions do.", "quantifier": "every history and every behaviour of the update functions", "why_tests_cant": "Update functions may open, close and move windows while the loop runs.", "anchors": ["api/src/cmp/desktop_gui/impl/windows/windows_desktop_gui_application.cpp: run", "api/src/cmp/desktop_gui/impl/gtk/gtk_desktop_gui_application.cpp: run", "api/src/cmp/desktop_gui/impl/macos/macos_desktop_gui_application.mm: run", "api/src/cmp/desktop_gui/impl/common/common_window.cpp: update_window"]}
{"id": "C71", "title": "Update times add up", "statement": "The delta_seconds a window's update gets is never negative, and total_seconds is the sum of all deltas that window was given, also when the window object was moved in between.", "quantifier": "every history and every passage of time", "why_tests_cant": "Unbounded histories of moves and updates at arbitrary times.", "anchors": ["api/src/cmp/desktop_gui/impl/common/common_window.cpp: update_window", "api/src/cmp/desktop_gui/impl/windows/windows_window.cpp: open, move operations"]}
{"id": "C72", "title": "The event loop ends with the last window", "statement": "run returns as soon as, and not before, no window is open.", "quantifier": "every history of window operations and events", "why_tests_cant": "Unbounded histories of opens, moves and closes.", "anchors": ["api/src/cmp/desktop_gui/impl/windows/windows_desktop_gui_application.cpp: run", "api/src/cmp/desktop_gui/impl/gtk/gtk_desktop_gui_application.cpp: run", "api/src/cmp/desktop_gui/impl/macos/macos_desktop_gui_application.mm: run"]}
{"id": "C73", "title": "Prompts appear before the program waits", "statement": "When a read from the standard input has to wait for the user, everything the program sent to the standard output before that read has already been shown, flushed or not.", "quantifier": "every sequence of writes, flushes and reads, every splitting of the input into pieces, every buffer capacity, both platforms; for bytes and for text", "why_tests_cant": "Which read waits depends on how the input arrives and on what earlier reads left in the buffer.", "anchors": ["api/src/cmp/io/impl/unix_like/unix_like_uin.cpp: stdin_resource", "api/src/cmp/io/impl/windows/windows_uin.cpp: stdin_resource", "api/src/cmp/io/input_resource.cpp: read, tie", "api/src/cmp/io/uio.cpp: uin, uout"]}
{"id": "C74", "title": "Standard output and error get all text in order", "statement": "After a flush, and at the latest when the program ends, each of the two channels has shown exactly what was sent to it, in order and once; at any time before, a beginning of that.", "quantifier": "every sequence of writes, flushes and reads, every buffer capacity, every amount the system takes at once", "why_tests_cant": "Unbounded sequences; the system may take fewer bytes than it is given.", "anchors": ["api/src/cmp/io/impl/unix_like/unix_like_uout.cpp: write_raw", "api/src/cmp/io/impl/windows/windows_uout.cpp: write_raw", "api/src/cmp/io/output_resource.cpp: write, flush", "api/src/cmp/io/output_stream.ipp: ~output_stream"]}
{"id": "C75", "title": "Answers are returned as typed", "statement": "Reading characters, lines and words from uin returns the text the user typed, in order, whatever the pieces in which it arrives and whatever is written in between; CR LF counts as a line feed.", "quantifier": "every typed text of Unicode scalar values, every splitting, every sequence of questions whose answers were typed completely", "why_tests_cant": "All texts times all splittings times all programs.", "anchors": ["api/src/cmp/io/uio.cpp: uin", "api/src/cmp/io/impl/windows/windows_uin.cpp: stdin_stream", "api/src/cmp/io/impl/unix_like/unix_like_uin.cpp: stdin_stream", "api/src/cmp/io/text_input_stream.ipp: read_line, operator>>"]}
{"id": "C76", "title": "No waiting for input that is not needed", "statement": "A read from the standard input waits only as long as the bytes given to the program so far are fewer than those needed for everything asked for; a question whose answer has been received completely does not wait.", "quantifier": "every sequence of calls and every splitting of the input", "why_tests_cant": "A needless wait is a hang that depends on the timing of the input.", "anchors": ["api/src/cmp/io/input_resource.cpp: read_buffered", "api/src/cmp/io/impl/unix_like/unix_like_uin.cpp: read_raw", "api/src/cmp/io/text_input_stream.ipp: read_line, operator>>"]}
{"id": "C77", "title": "Bytes of the standard input come once and in order", "statement": "Reads from uin_resource give the bytes of the standard input in order, none twice and none left out, never more than asked for; a read gives none only at the end of the input. This holds also after a read that failed.", "quantifier": "every sequence of reads, every splitting, failures at any point", "why_tests_cant": "Failures of the system cannot be provoked at every point.", "anchors": ["api/src/cmp/io/impl/unix_like/unix_like_uin.cpp: read_raw", "api/src/cmp/io/impl/windows/windows_uin.cpp: read_raw", "api/src/cmp/io/input_resource.cpp: read_buffered"]}
{"id": "C78", "title": "The end of the standard input", "statement": "When the standard input ends (a file or pipe), the last line or word is returned even if no line end or white space follows it, read_all returns all of it, and later questions report the end.", "quantifier": "every text given as standard input", "why_tests_cant": "All texts and all splittings.", "anchors": ["api/src/cmp/io/impl/unix_like/unix_like_uin.cpp: is_at_end", "api/src/cmp/io/impl/windows/windows_uin.cpp: is_at_end", "api/src/cmp/io/text_input_stream.ipp: append_line, append_all, operator>>"]}
{"id": "C79", "title": "The standard streams can be used from start to end of main", "statement": "The static objects uin, uout, uerr and their resources are constructed before use, and no constructor or destructor uses one that is not alive.", "quantifier": "header-only and compiled library, both platforms", "why_tests_cant": "The order of static objects is not visible to a test, and its undefined behaviour may seem to work.", "anchors": ["api/src/cmp/io/definitions.cpp", "api/src/cmp/io/uio.cpp: uin, uout, uerr", "api/src/cmp/io/impl/unix_like/unix_like_uin.cpp: uin_resource", "api/src/cmp/io/impl/unix_like/unix_like_uout.cpp: uout_resource"]}
{"id": "C80", "title": "A text file is read as it was written", "statement": "Text written to a file through a text output stream (characters, strings of any kind, integers, booleans, byte order marks, with flushes anywhere) is what a text input stream on that file returns afterwards, in whatever mix of characters, lines, words, numbers and whole rests it is asked for; CR LF counts as a line feed.", "quantifier": "every sequence of entries and requests, every encoding, byte order and buffer capacity, both platforms, with and without an existing file", "why_tests_cant": "All texts times all ways of writing and reading them times buffer boundaries.", "anchors": ["api/src/cmp/io/text_output_stream.ipp: operator<<", "api/src/cmp/io/text_input_stream.ipp: operator>>, read_line, read_all", "api/src/cmp/io/file.cpp: read, write", "api/src/cmp/io/output_stream.ipp: ~output_stream"]}
{"id": "C81", "title": "Requests of different kinds can be mixed", "statement": "Reading characters, lines, words, numbers, booleans or the rest of the input in any order returns consecutive pieces of the text: nothing is skipped, repeated or swallowed by a previous request except the line end or the one white space character that ended its piece.", "quantifier": "every text and every sequence of requests, every encoding, byte order, buffer capacity and target string type", "why_tests_cant": "Each kind of request leaves the stream at a place where every other may go on.", "anchors": ["api/src/cmp/io/text_input_stream.ipp: operator>>, read_line, append_line, read_all, is_at_end"]}
{"id": "C82", "title": "Text can be appended to a file", "statement": "Text written after setting the position of an existing file to the end follows what was there; the file then holds the encoding of both texts, one after the other.", "quantifier": "every existing text, every sequence of entries, every encoding and byte order, both platforms", "why_tests_cant": "All texts times buffer states.", "anchors": ["api/src/cmp/io/seekable_io_resource.ipp: set_position", "api/src/cmp/io/text_output_stream.ipp: operator<<", "api/src/cmp/io/file.cpp: write"]}
{"id": "C83", "title": "Text read from a failing system is right or refused", "statement": "Whatever the operating system does while a text file is read (fewer bytes than asked for, failures at any call), each request returns the right piece of the text, or an exception is thrown; wrong text is never returned.", "quantifier": "every text, every sequence of requests, every behaviour of the operating system after opening", "why_tests_cant": "Short reads and failures cannot be provoked at every point.", "anchors": ["api/src/cmp/io/impl/unix_like/unix_like_file.cpp: read_raw", "api/src/cmp/io/impl/windows/windows_file.cpp: read_raw", "api/src/cmp/io/text_input_stream.ipp: read_code_point"]}
{"id": "C84", "title": "Text streams respect the access mode of the file", "statement": "Writing text through a stream on a file opened for reading, or reading text through a stream on a file opened for writing, throws invalid_access_mode.", "quantifier": "every request, every sequence of entries with a text, every encoding and file state", "why_tests_cant": "Each way of writing and reading takes its own path to the resource.", "anchors": ["api/src/cmp/io/file.cpp: read, write", "api/src/cmp/io/text_output_stream.ipp: operator<<", "api/src/cmp/io/text_input_stream.ipp: operator>>, read_line"]}
{"id": "C85", "title": "Text that was accepted is in the file", "statement": "When text has been written to a file through a stream and stream and file have been destroyed without an exception, the text is in the file.", "quantifier": "every sequence of entries, every behaviour of the operating system, every buffer capacity", "why_tests_cant": "Requires failures at every single call of the operating system.", "anchors": ["api/src/cmp/io/output_stream.ipp: write, flush", "api/src/cmp/io/output_resource.cpp: flush", "api/src/cmp/io/impl/unix_like/unix_like_file.cpp: write_raw", "api/src/cmp/io/impl/windows/windows_file.cpp: write_raw"]}
{"id": "C86", "title": "A text can be copied to another file in another encoding", "statement": "Reading a text file character by character and writing each to a second file, in any encoding and byte order, gives the encoding of the same text, with LF for CR LF, and leaves the first file and all others unchanged.", "quantifier": "every text, every pair of encodings and byte orders, every pair of buffer capacities, both platforms", "why_tests_cant": "All texts times all pairs of encodings; the two files share the operating system's state.", "anchors": ["api/src/cmp/io/text_input_stream.ipp: operator>>", "api/src/cmp/io/text_output_stream.ipp: operator<<", "api/src/cmp/io/file.cpp: read, write"]}
{"id": "C87", "title": "Files with a byte order mark can be read with any byte order", "statement": "After read_bom on a file that begins with a byte order mark, all further requests return the text behind the mark, whichever byte order the stream was constructed with.", "quantifier": "every text, encoding, byte order of the file and of the stream, sequence of requests and buffer capacity", "why_tests_cant": "All texts times all requests times byte orders.", "anchors": ["api/src/cmp/io/text_input_stream.ipp: read_bom", "api/src/cmp/io/file.cpp: read"]}
{"id": "C88", "title": "A text I/O stream continues a text in its byte order", "statement": "When a text I/O stream has read the byte order mark of a file, what it writes is in the byte order of that mark, so that the file remains one text.", "quantifier": "every text, every sequence of entries, every encoding and byte order", "why_tests_cant": "Depends on the relation of two base classes over all byte orders.", "anchors": ["api/src/cmp/io/text_io_stream.ipp", "api/src/cmp/io/text_input_stream.ipp: read_bom", "api/src/cmp/io/text_output_stream.ipp: operator<<"]}
{"id": "C89", "title": "A window's title is the one it was given", "statement": "get_title returns the title last given to the window by its constructor, open or set_title, whatever else was done with this and other windows, and also after the window object was moved.", "quantifier": "every well-formed UTF-8 title, every history of opening, naming, showing, hiding, moving and closing windows, three toolkits", "why_tests_cant": "All titles times all histories; each toolkit has its own conversions.", "anchors": ["api/src/cmp/desktop_gui/impl/windows/windows_window.cpp: get_title, set_title, open", "api/src/cmp/desktop_gui/impl/gtk/gtk_window.cpp: get_title, set_title, open", "api/src/cmp/desktop_gui/impl/macos/macos_window.mm: get_title, set_title, open"]}
{"id": "C90", "title": "Objects without window are harmless", "statement": "A window object whose window could not be created, was moved away or was closed has an empty title, and naming, showing and hiding it changes no window.", "quantifier": "every history, every such object and request, three toolkits", "why_tests_cant": "Needs every way in which an object can lose its window, on three systems.", "anchors": ["api/src/cmp/desktop_gui/impl/windows/windows_window.cpp: get_title, set_title, show, hide", "api/src/cmp/desktop_gui/impl/gtk/gtk_window.cpp: get_title, set_title, show, hide", "api/src/cmp/desktop_gui/impl/macos/macos_window.mm: get_title, set_title, show, hide"]}
{"id": "C91", "title": "Hiding and showing a window leaves it as it was", "statement": "A window is on the screen exactly while it is shown; it appears first in the mode given to open, and afterwards in the state in which the user left it.", "quantifier": "every history of opening, showing, hiding, moving and closing windows and of the user maximizing, minimizing and restoring them, three toolkits", "why_tests_cant": "All histories; depends on the state of the system's window.", "anchors": ["api/src/cmp/desktop_gui/impl/windows/windows_window.cpp: open, show, hide", "api/src/cmp/desktop_gui/impl/gtk/gtk_window.cpp: open, show, hide", "api/src/cmp/desktop_gui/impl/macos/macos_window.mm: open, show, hide"]}
{"id": "C92", "title": "A refused title changes nothing", "statement": "A title that is not valid is refused with an exception, and neither the window object nor any window has changed: the old title stays, an unopened object can still be opened, and nothing is left over from a constructor that failed.", "quantifier": "every byte sequence as title, every state, three toolkits", "why_tests_cant": "All byte sequences; the exception may leave at several points.", "anchors": ["api/src/cmp/desktop_gui/impl/windows/windows_window.cpp: set_title, open, window", "api/src/cmp/desktop_gui/impl/gtk/gtk_window.cpp: set_title, open, window", "api/src/cmp/desktop_gui/impl/macos/macos_window.mm: set_title, open, window", "api/src/cmp/unicode/algorithms.ipp: convert_string"]}
{"id": "C93", "title": "A new window has the size asked for and is in the middle of the screen", "statement": "On Windows the inside of a new window has the width and height given to open, and the window including its frame is centred on the screen to within one pixel. The program's later requests, and the user's maximizing and minimizing it, do not change that.", "quantifier": "every size, every screen and every width of the frame's sides (all below 2^28), every history before", "why_tests_cant": "All sizes and screens; rounding and negative distances (windows larger than the screen).", "anchors": ["api/src/cmp/desktop_gui/impl/windows/windows_window.cpp: open"]}
{"id": "C94", "title": "Values written to a file can be read on another machine", "statement": "Values written to a file through a data output stream are in the file in the byte order asked for, whatever machine writes, and a data input stream with that byte order gives the same values on any machine; appended values follow what the file had. No other file changes.", "quantifier": "every sequence of values of every size, byte orders of both machines and of the file, all buffer capacities, access modes, older contents, both platforms", "why_tests_cant": "All values times byte orders; the machines' byte orders are fixed where tests run.", "anchors": ["api/src/cmp/io/data_output_stream.ipp: operator<<", "api/src/cmp/io/data_input_stream.ipp: operator>>", "api/src/cmp/io/file.cpp: read, write", "api/include/cmp/io/data_input_stream.hpp: data_input_stream"]}
{"id": "C95", "title": "A file can be used as a table of records", "statement": "When a file is used through one data I/O stream as a table of records with fields of fixed sizes, reading, replacing and appending records and fields in any order, each record or field read is the one last written there, and at the end the file has the bytes of the table.", "quantifier": "every layout, table, sequence of operations, byte order, buffer capacity and machine, both platforms", "why_tests_cant": "All sequences of operations; depends on the buffer's state at each change between reading and writing.", "anchors": ["api/include/cmp/io/data_io_stream.hpp: data_io_stream", "api/src/cmp/io/seekable_io_resource.ipp: set_position", "api/src/cmp/io/file.cpp: read, write"]}
{"id": "C96", "title": "Reading values until the end gives all of the file", "statement": "A program that reads values of one size until is_at_end gets values whose bytes are exactly those of the file, or read_past_end if the last value is incomplete, whatever the file has.", "quantifier": "every file content, value size, byte order, buffer capacity, both platforms", "why_tests_cant": "All contents and lengths, relative to all buffer sizes.", "anchors": ["api/src/cmp/io/data_input_stream.ipp: operator>>", "api/src/cmp/io/input_stream.ipp: is_at_end", "api/src/cmp/io/file.cpp: read, is_at_end"]}
{"id": "C97", "title": "Values read from a failing system are right or refused", "statement": "Whatever the operating system does while values are read from a file (fewer bytes than asked for, failures at any call), the values are those of the file, or read_past_end is thrown; wrong values are never returned.", "quantifier": "every file content, sequence of sizes, every behaviour of the operating system after opening", "why_tests_cant": "Short reads and failures cannot be provoked at every point.", "anchors": ["api/src/cmp/io/impl/unix_like/unix_like_file.cpp: read_raw", "api/src/cmp/io/impl/windows/windows_file.cpp: read_raw", "api/src/cmp/io/input_stream.ipp: read"]}
{"id": "C98", "title": "Data streams respect the access mode of the file", "statement": "Writing a value to a file opened for reading, or reading a value from a file opened for writing, throws invalid_access_mode.", "quantifier": "every file, value, byte order and machine, every way of opening, both platforms", "why_tests_cant": "All values and states of the file.", "anchors": ["api/src/cmp/io/file.cpp: read, write", "api/src/cmp/io/data_output_stream.ipp: operator<<", "api/src/cmp/io/data_input_stream.ipp: operator>>"]}
{"id": "C99", "title": "Floating-point numbers saved in a text file can be loaded", "statement": "Floating-point numbers written to a file through a text output stream, one on each line, are readable decimal numbers, and a text input stream on the file reads the same numbers back.", "quantifier": "every sequence of values of every floating-point type, every encoding and byte order, all buffer capacities, both platforms", "why_tests_cant": "All values; a rounding error of one unit in the last place shows for few of them.", "anchors": ["api/src/cmp/io/text_output_stream.ipp: operator<<", "api/src/cmp/io/text_input_stream.ipp: operator>>", "api/src/cmp/unicode/formatters.ipp: format_floating_point", "api/src/cmp/unicode/parsers.ipp: parse_floating_point"]}
{"id": "C100", "title": "Decimal numbers in a text file are loaded as what they say", "statement": "Words of a text file that are decimal numbers, with any white space around them, are read by operator >> as the values of the type asked for that are closest to the numbers the words denote.", "quantifier": "every text, number of digits, floating-point type, encoding, byte order, buffer capacity, both platforms", "why_tests_cant": "All digit sequences; the error depends on the number of digits.", "anchors": ["api/src/cmp/io/text_input_stream.ipp: operator>>", "api/src/cmp/unicode/parsers.ipp: parse_floating_point"]}
{"id": "C101", "title": "Dummies report their lives to their test module", "statement": "Every construction, copy, move and destruction of a dummy puts its message at the end of the queue of the module the dummy was made for, or that of the dummy it was copied or moved from; values follow, and a moved-from dummy has the default value. As long as the messages are left alone, a module has got one message of birth more than of death for each of its dummies that is there.", "quantifier": "every program that makes, copies, moves, uses and drops modules and dummies, of any length and in any order, addresses used again included", "why_tests_cant": "All histories; a test sees a few of them, and the test module is what tests themselves rely on.", "anchors": ["api/src/cmp/core/test_module.ipp: dummy, push_message, pop_message, clear_message_queue, get_message_count"]}
{"id": "C102", "title": "A moved test module keeps its dummies", "statement": "When a test module is copied or moved, the messages that wait in it go along, and after a move its dummies report to the new module.", "quantifier": "every history before, every number of messages, every state left in the moved-from queue", "why_tests_cant": "All histories; the state of the moved-from queue depends on the library.", "anchors": ["api/include/cmp/core/test_module.hpp: test_module, dummy", "api/src/cmp/core/test_module.ipp: dummy"]}
{"id": "C103", "title": "A test program succeeds exactly if all tests do", "statement": "A program whose main returns the result of run_tests has exit status zero exactly if every test function returned true; if one throws, the program ends abnormally.", "quantifier": "every sequence of test functions, Unix-like systems and Windows", "why_tests_cant": "All numbers of tests and failures; systems keep different parts of the value main returns.", "anchors": ["api/src/cmp/core/test_module.ipp: run_tests", "tests/automated/core/test_core_general.cpp: main"]}
{"id": "C104", "title": "The report of a run can be read back", "statement": "What a run prints is, character by character, the announcement of each test and stage, the verdicts, the totals and the failures; programs that print the same have run tests of the same names, with the same stages and verdicts, in the same order.", "quantifier": "every sequence of test functions (whose names are one line each), every interleaving of starts, stages and messages", "why_tests_cant": "Unambiguity is about all pairs of programs.", "anchors": ["api/src/cmp/core/test_module.ipp: start_test, end_stage, end_test, run_tests, report_failed_test, zero_pad"]}
{"id": "C105", "title": "Update functions are told the time in seconds", "statement": "The delta and the total an update function is told are finite, not negative and right to within one part in 2^51; the delta is never greater than the total, and totals never go down. Adding up the deltas gives the total.", "quantifier": "every history of windows and updates, every time below 2^63 nanoseconds", "why_tests_cant": "All times: conversion and division round, so each claim is about all 63-bit counts and all sequences of them.", "anchors": ["api/src/cmp/desktop_gui/impl/common/common_window.cpp: update_window"]}
{"id": "C106", "title": "The whole seconds of the total are those that have passed", "statement": "Rounding the total an update function is told down gives the number of whole seconds since the window was opened.", "quantifier": "every time below 2^63 nanoseconds", "why_tests_cant": "All times; the first wrong one comes after 104 days.", "anchors": ["api/src/cmp/desktop_gui/impl/common/common_window.cpp: update_window", "examples/desktop_gui_example/src/main.cpp: update"]}
{"id": "C107", "title": "The counter of the example program", "statement": "While its counter is on, the title of the demo window after an update is the number of whole seconds since it was opened, with thousands separators, followed by s; while it is off it is the name of the program.", "quantifier": "every sequence of updates and keys, every time", "why_tests_cant": "All histories of keys and updates.", "anchors": ["examples/desktop_gui_example/src/main.cpp: demo_window", "api/src/cmp/unicode/formatters.ipp: format_integer", "api/src/cmp/desktop_gui/impl/common/common_window.cpp: update_window"]}
{"id": "C108", "title": "A failing write loses nothing accepted before", "statement": "If the device behind an output resource takes all of a write or throws and takes nothing, then after any writes and flushes, some of which threw, the device and the buffer together hold exactly the bytes of the writes that returned; the next flush that returns has brought all of them to the device.", "quantifier": "every sequence of writes and flushes, capacity and pattern of failures; among the devices: containers that run out of memory", "why_tests_cant": "All interleavings of failures with the states of the buffer.", "anchors": ["api/src/cmp/io/output_resource.cpp: write, flush, write_buffered", "api/src/cmp/io/io_buffer.cpp: write", "api/src/cmp/io/impl/ctr_essence.ipp: write_raw"]}
{"id": "C109", "title": "A failing read loses nothing", "statement": "If the device behind an input resource throws without having lost anything, a program that catches the exception and reads on gets all the bytes of the device, in order.", "quantifier": "every content, sequence of reads, capacity and pattern of failures", "why_tests_cant": "All interleavings of failures with the states of the buffer.", "anchors": ["api/src/cmp/io/input_resource.cpp: read, fill, read_buffered", "api/src/cmp/io/io_buffer.cpp: read"]}
{"id": "C110", "title": "Destroying a stream and setting a position do not end the program", "statement": "The destructor of an output stream and set_position, which must not throw, bring what is buffered to the device or leave it; they never end the program.", "quantifier": "every history of writes and flushes, capacity and pattern of failures", "why_tests_cant": "All points at which a device may fail.", "anchors": ["api/src/cmp/io/output_stream.ipp: ~output_stream", "api/src/cmp/io/seekable_output_resource.ipp: set_position", "api/src/cmp/io/impl/ctr_essence.ipp: write_raw"]}
{"id": "C111", "title": "Running out of memory while a code point is added leaves the string as it was", "statement": "If insert_code_point, append_code_point or prepend_code_point throw std::bad_alloc, the string is unchanged.", "quantifier": "every string, kind, code point, index, capacity and sequence of answers of the allocator", "why_tests_cant": "All points at which memory may run out.", "anchors": ["api/src/cmp/unicode/algorithms.ipp: insert_code_point, append_code_point, prepend_code_point"]}
{"id": "C112", "title": "Converting a string asks for memory only once", "statement": "convert_string reserves room for the result before it converts; once it has that room it cannot run out of memory.", "quantifier": "every text, pair of kinds and sequence of answers of the allocator", "why_tests_cant": "All points at which memory may run out.", "anchors": ["api/src/cmp/unicode/algorithms.ipp: convert_string"]}
{"id": "C113", "title": "The owner of a container may change it while it is read", "statement": "An input resource on a container refers to the caller's object. If the caller changes the container between calls, every read returns bytes that are in the container at that time, from the current position on, and touches nothing outside of it.", "quantifier": "every content, element size and capacity, every sequence of reads, seeks and changes", "why_tests_cant": "All interleavings of changes by the owner with the states of the buffer.", "anchors": ["api/src/cmp/io/transparent_container_input_resource.ipp", "api/src/cmp/io/impl/ctr_essence.ipp: read_raw, set_position_raw", "api/src/cmp/io/seekable_input_resource.ipp: set_position", "api/src/cmp/io/input_resource.cpp: read, fill, read_buffered"]}
{"id": "C114", "title": "A writer and a reader of one container are a pipe", "statement": "An output resource that appends to a container and an input resource on the same container: every read gives the next bytes of those delivered so far, at least everything written before the last flush; nothing is lost, repeated or out of order. With the writer tied to the reader, everything written is delivered at every read.", "quantifier": "every interleaving of writes, flushes and reads, every initial content, element size and pair of capacities", "why_tests_cant": "All interleavings, with the states of two buffers.", "anchors": ["api/src/cmp/io/transparent_container_input_resource.ipp", "api/src/cmp/io/transparent_container_output_resource.ipp", "api/src/cmp/io/impl/ctr_essence.ipp: read_raw, write_raw, is_at_end", "api/src/cmp/io/input_resource.cpp: read, tie", "api/src/cmp/io/output_resource.cpp: write, flush"]}
{"id": "C115", "title": "A container used for output can be emptied by its owner", "statement": "The owner of a container that an output resource writes to may take its content and leave it empty after a flush; the next content is what is written next.", "quantifier": "every sequence of rounds of writes, element size and capacity", "why_tests_cant": "All numbers and sizes of rounds and states of the buffer.", "anchors": ["api/src/cmp/io/transparent_container_output_resource.ipp: grab_content", "api/src/cmp/io/impl/ctr_essence.ipp: write_raw", "api/src/cmp/io/seekable_output_resource.ipp: set_position"]}
{"id": "C116", "title": "After a wrong answer a program can ask again", "statement": "A program asks for integers and truth values with uin >> x and catches the exception for a wrong answer. Every question uses up exactly the next word that was typed; it gives the number or truth value the word denotes, or it is reported as wrong and the next question gets the next word. A loop that asks until the answer is right ends with the first right answer.", "quantifier": "every typed text and division into pieces, sequence of questions and prompts, integer type, platform and set of buffer capacities", "why_tests_cant": "All texts a user may type, right and wrong answers in any order.", "anchors": ["api/src/cmp/io/text_input_stream.ipp: operator >> (bool&), operator >> (T&)", "api/src/cmp/unicode/parsers.ipp: parse_integer, parse_bool", "api/src/cmp/io/impl/unix_like/unix_like_uin.cpp", "api/src/cmp/io/impl/windows/windows_uin.cpp"]}
{"id": "C117", "title": "Normal and error output appear on a terminal in the order they were written", "statement": "When the standard output and the standard error go to the same terminal, the texts a program writes to uout and uerr appear there in the order in which they were written.", "quantifier": "every program of writes, flushes and questions, every typed input, platform and set of buffer capacities", "why_tests_cant": "All interleavings of two buffered channels.", "anchors": ["api/src/cmp/io/uio.cpp: uout, uerr", "api/src/cmp/io/impl/unix_like/unix_like_uout.cpp", "api/src/cmp/io/impl/windows/windows_uout.cpp", "api/src/cmp/io/output_resource.cpp: write, flush", "api/src/cmp/io/input_resource.cpp: read"]}
{"id": "C118", "title": "Programs can react to what the user answers", "statement": "A program that decides after each answer what to say and to ask next takes exactly the turns that go with the answers typed: it never waits for input before everything it said to the standard output has appeared, and at its end each channel has shown exactly what the program said on it in view of these answers.", "quantifier": "every program (a tree that branches on answers), every typed text that holds the answers, however it arrives, every platform, byte order and set of buffer capacities; a system that takes all output", "why_tests_cant": "All programs, all answers and all ways in which they may arrive.", "anchors": ["api/src/cmp/io/uio.cpp", "api/src/cmp/io/impl/unix_like/unix_like_uin.cpp", "api/src/cmp/io/impl/windows/windows_uin.cpp", "api/src/cmp/io/text_input_stream.ipp", "api/src/cmp/io/text_output_stream.ipp", "api/src/cmp/io/input_resource.cpp: read"]}
{"id": "C119", "title": "The Unicode example repeats what the user says", "statement": "The example program shows its introduction and its question, waits for a word, and then shows \"You said: \", the word as typed, and \"Cool.\", in this order, whatever the word.", "quantifier": "every word and whatever follows it, however it arrives, both platforms, both ways to build the library, terminals as well as files and pipes", "why_tests_cant": "All words in Unicode.", "anchors": ["examples/unicode_stdio_example/src/main.cpp: main", "api/src/cmp/io/uio.cpp", "api/src/cmp/io/text_input_stream.ipp", "api/src/cmp/io/text_output_stream.ipp"]}
{"id": "C120", "title": "Resource objects can be copied, moved and tied", "statement": "A program may copy and move input resources and move output resources about: reads go on where they were, and every read of an input tied to an output delivers everything written to that output so far.", "quantifier": "every sequence of making, copying, moving, assigning, destroying, tying, writing, flushing and reading, on any number of resources and containers, all buffer capacities; compilers that assign a shared base once or twice", "why_tests_cant": "All histories of objects, and all compilers.", "anchors": ["api/src/cmp/io/input_resource.cpp: read, tie", "api/include/cmp/io/input_resource.hpp: m_tied_resource", "api/include/cmp/io/transfer_resource.hpp", "api/include/cmp/io/output_resource.hpp", "api/include/cmp/io/io_buffer.hpp", "api/include/cmp/io/seekable_output_resource.hpp", "api/include/cmp/io/transparent_container_output_resource.hpp", "api/include/cmp/io/transparent_container_input_resource.hpp"]}
{"id": "C121", "title": "Type traits describe text", "statement": "The type traits tell for every type, however qualified, whether it is text (string, view, pointer to or array of code units), whether the text can be changed through it, whether it is a view and whether it owns the text; no type is text in two kinds of units.", "quantifier": "every C++ type and every choice of sizes by the compiler, all twenty traits", "why_tests_cant": "There are infinitely many types; the tests try a list of them.", "anchors": ["api/include/cmp/unicode/type_traits.hpp", "api/include/cmp/core/type_traits.hpp: constant_max_v", "api/include/cmp/unicode/concepts.hpp"]}
{"id": "C122", "title": "Values are shown according to their type", "statement": "stream << x shows characters as characters, text as text, bool and numbers as such, flushes for cmp::flush, and does not compile for anything else.", "quantifier": "every C++ type of x (classes without conversions)", "why_tests_cant": "The compiler chooses among sixteen functions for infinitely many types.", "anchors": ["api/include/cmp/io/text_output_stream.hpp: operator <<", "api/src/cmp/io/text_output_stream.ipp"]}
{"id": "C123", "title": "Values are read in the way they are shown", "statement": "If a variable can be shown with << and read with >>, it is read in the way in which it is shown.", "quantifier": "every C++ type that has a size", "why_tests_cant": "The compiler chooses among functions for infinitely many types.", "anchors": ["api/include/cmp/io/text_output_stream.hpp: operator <<", "api/include/cmp/io/text_input_stream.hpp: operator >>"]}
{"id": "C124", "title": "Functions on text take every kind of text", "statement": "Functions that take text (conversion, comparison, parsing, validation) take every type that the concept text_object describes, and treat it as text in its own kind of code units.", "quantifier": "every type that is text, however qualified, every size of wchar_t", "why_tests_cant": "All types and array bounds.", "anchors": ["api/include/cmp/unicode/algorithms.hpp: string_size, convert_string, starts_with, ends_with, validate_string", "api/include/cmp/unicode/by_code_point.hpp: deduction guides", "api/include/cmp/unicode/parsers.hpp", "api/include/cmp/core/type_traits.hpp: value_type_t"]}
{"id": "C125", "title": "Chains of stream operators", "statement": "A chain of << and >> on a stream does what its parts do one by one, in this order; it compiles if each of them compiles alone.", "quantifier": "all six kinds of streams, chains of every length, parts of every C++ type", "why_tests_cant": "Chains of all lengths and parts of all types.", "anchors": ["api/include/cmp/io/text_output_stream.hpp: operator <<", "api/include/cmp/io/text_input_stream.hpp: operator >>", "api/include/cmp/io/data_output_stream.hpp: operator <<", "api/include/cmp/io/data_input_stream.hpp: operator >>", "api/include/cmp/io/output_stream.hpp: operator <<", "api/include/cmp/io/text_io_stream.hpp", "api/include/cmp/io/data_io_stream.hpp"]}
{"id": "C126", "title": "What data streams take", "statement": "Data streams write and read objects of every fundamental type, and of no other; what can be read can also be written.", "quantifier": "every C++ type, variables and temporaries", "why_tests_cant": "There are infinitely many types.", "anchors": ["api/include/cmp/io/data_output_stream.hpp: operator <<", "api/include/cmp/io/data_input_stream.hpp: operator >>", "api/src/cmp/io/data_output_stream.ipp", "api/src/cmp/io/data_input_stream.ipp"]}
{"id": "C127", "title": "Threads with different objects", "statement": "Threads that use different resource objects do not disturb one another: under every schedule each of them sees what it would see alone.", "quantifier": "any number of threads, programs of every length over outputs, inputs and containers, every schedule", "why_tests_cant": "Schedules cannot be enumerated by tests.", "anchors": ["api/src/cmp/io/input_resource.cpp: read, tie", "api/src/cmp/io/output_resource.cpp: write, flush", "api/include/cmp/io/input_resource.hpp: m_tied_resource", "api/src/cmp/io/uio.cpp"]}
{"id": "C128", "title": "Files of a killed process", "statement": "When a process is killed at any moment, a file it was using (as C64 allows, on a system that does what it is asked to) is as after an initial part of the calls: no call followed by a completed flush or seek is lost, at most as many bytes of completed writes as the buffer holds are missing, and unless the kill falls inside a system call no write is there in part. No other file has changed.", "quantifier": "every history of calls, every moment of the kill (between any two system calls, or within one), every buffer size, both platforms", "why_tests_cant": "Tests cannot stop a process at every system call of every history.", "anchors": ["api/src/cmp/io/file.cpp: write", "api/src/cmp/io/output_resource.cpp: write, flush, write_buffered", "api/src/cmp/io/impl/unix_like/unix_like_file.cpp: write_raw, close", "api/src/cmp/io/impl/windows/windows_file.cpp: write_raw, close", "api/src/cmp/io/seekable_io_resource.ipp: set_position"]}
{"id": "C129", "title": "Characters in a text file of a killed process", "statement": "When a process that writes a text through a stream to a file is killed at any moment, the file holds an initial part of the text, in whole characters; everything before a completed flush is there, and at most as many bytes as the buffer holds are missing.", "quantifier": "every text and mix of writing calls, encoding form, byte order, string kind, buffer size, platform, and every moment of the kill", "why_tests_cant": "Tests cannot stop a process at every system call of every text.", "anchors": ["api/src/cmp/io/text_output_stream.ipp: write_code_point_in_utf16, operator <<", "api/src/cmp/io/output_stream.ipp: write, reverse_write", "api/src/cmp/io/output_resource.cpp: write, flush", "api/src/cmp/io/impl/unix_like/unix_like_file.cpp: write_raw", "api/src/cmp/io/impl/windows/windows_file.cpp: write_raw"]}
{"id": "C130", "title": "Values in a data file of a killed process", "statement": "When a process that writes values through a data stream to a file is killed at any moment, the file holds an initial part of the bytes of these values, and a number of the first values, each whole, if no system call was cut short; everything before a completed flush is there, and at most as many bytes as the buffer holds are missing. A later process reads the whole values as they were.", "quantifier": "every list of values of any sizes, byte order, buffer size, platform, and every moment of the kill", "why_tests_cant": "Tests cannot stop a process at every system call of every list of values.", "anchors": ["api/src/cmp/io/data_output_stream.ipp: write, operator <<", "api/src/cmp/io/output_stream.ipp: write, reverse_write", "api/src/cmp/io/output_resource.cpp: write, flush", "api/src/cmp/io/data_input_stream.ipp: operator >>"]}
{"id": "C131", "title": "The project's own tests on every machine", "statement": "Every automated test of the project succeeds, and every test program ends with exit status 0, on every machine and configuration it can be built for.", "quantifier": "every signedness of char, size of wchar_t, byte order, operating system, sizes of other types, and configured default buffer capacity; the test suite itself is finite", "why_tests_cant": "A test run shows one machine and one configuration: that of the run.", "anchors": ["tests/automated/core/test_core_general.cpp", "tests/automated/unicode/test_examiners.cpp", "tests/automated/unicode/test_algorithms.cpp", "tests/automated/unicode/test_by_code_point.cpp", "tests/automated/unicode/test_formatters.cpp", "tests/automated/unicode/test_parsers.cpp", "tests/automated/unicode/test_type_traits.cpp", "tests/automated/io/test_io_general.cpp", "tests/automated/io/test_container_transfer_resources.cpp: read_u16string, read_u32string, read_wstring", "tests/automated/io/test_file.cpp", "tests/automated/io/test_data_input_stream.cpp", "tests/automated/io/test_data_output_stream.cpp", "tests/automated/io/test_data_io_stream.cpp", "tests/automated/io/test_text_input_stream.cpp", "tests/automated/io/test_text_output_stream.cpp", "tests/automated/io/test_text_io_stream.cpp", "tests/data", "api/include/cmp/core/config.hpp: CMP_CONFIG_DEFAULT_BUFFER_CAPACITY"]}
{"id": "C132", "title": "Characters of a char string", "statement": "Iterating a string of char visits, for every char in it, the number of this character, and conversions of the string keep these numbers.", "quantifier": "every string of char, whether char is signed or not", "why_tests_cant": "The signedness of char differs between platforms, and tests use ASCII.", "anchors": ["api/src/cmp/unicode/by_code_point.cpp: by_code_point<char>::const_iterator::operator *", "api/src/cmp/unicode/algorithms.ipp: convert_string"]}
{"id": "C133", "title": "Iterator operators on arbitrary text", "statement": "On any string, valid or not, ++it, it++, it + n, it - n and it -= n move an iterator within the string or throw invalid_unicode_encoding or iterated_past_end; the postfix forms return the iterator as it was, it + n and it - n leave it alone, and iterators compare equal exactly if they are at the same place.", "quantifier": "every string of each kind, every position and offset", "why_tests_cant": "Malformed and truncated strings are endless; tests use well-formed ones.", "anchors": ["api/src/cmp/unicode/by_code_point.cpp: operator ++, operator --, operator +, operator -, operator -=, operator ==, operator !=, advance, finish_sequence"]}
{"id": "C134", "title": "Files behave the same on Unix-like systems and Windows", "statement": "The same history of a file object (constructed, opened, read, written, positioned, asked for its position, its end and whether it is open, closed, destroyed, in any order) gives the program the same results and exceptions on a Unix-like system and on Windows, and leaves the same files behind.", "quantifier": "every contents of the disk, path, access mode, buffer capacity and history, and every pattern of failing system calls", "why_tests_cant": "Each platform's tests run one of the two implementations, on a few histories.", "anchors": ["api/src/cmp/io/impl/unix_like/unix_like_file.cpp: open, close, read_raw, write_raw, get_position, set_position_raw", "api/src/cmp/io/impl/windows/windows_file.cpp: open, close, read_raw, write_raw, get_position, set_position_raw", "api/src/cmp/io/file.cpp: read, write, is_at_end", "api/src/cmp/io/input_resource.cpp: read", "api/src/cmp/io/output_resource.cpp: write, flush"]}
{"id": "C135", "title": "What tests log", "statement": "Informational messages and errors that test functions log have no influence on the results of the tests and on the status of the program. They appear on the terminal in the order and at the places where they were logged, also when a test function then throws and the program ends abnormally. A reader, or a program that filters the standard output, can tell them from the report by the beginnings of their lines, and what remains is the report of the same tests without messages.", "quantifier": "every list of test functions, message, order of calls and ending of the messages, on both platforms", "why_tests_cant": "The project's tests of the test module log no messages and their output is read by people.", "anchors": ["api/src/cmp/core/test_module.ipp: log_info, log_error, run_tests, start_test, end_stage"]}
{"id": "C136", "title": "What a power failure leaves in files", "statement": "After a power failure a file is as it was after an initial part of the calls made on it, no write being there in part, and everything is there that was written before the last flush that returned, or before the file was closed. Files that were not written to are as they were.", "quantifier": "every contents of the disk, access mode, buffer capacity, history of calls and moment of the power failure, both platforms", "why_tests_cant": "A power failure, and all that an operating system may have kept in memory then, cannot be arranged in a test.", "anchors": ["api/src/cmp/io/output_resource.cpp: flush", "api/src/cmp/io/impl/unix_like/unix_like_file.cpp: open, close, write_raw", "api/src/cmp/io/impl/windows/windows_file.cpp: open, close, write_raw"]}
{"id": "C137", "title": "What the manual test of the consoles reports", "statement": "The program that tests the consoles with the help of a person shows everything it is supposed to, in order, each question before it waits for the answer. It reports the answers that are wrong, and no others, by name and by what it took them for, and its exit status is the number of tests that failed.", "quantifier": "every entered text, in pieces of any size, both platforms, byte orders, all buffer capacities and kinds of char", "why_tests_cant": "The test is itself run by hand, with few answers, and nothing tests that its verdict follows from what was typed.", "anchors": ["tests/manual/test_uio.cpp: test_output, test_input, test_parsing_and_formatting, main"]}
{"id": "C138", "title": "Windows behave alike with every toolkit", "statement": "A program with windows, whose user does the same, has the same handlers of the same window objects called with the same arguments, in the same order, on Windows, with GTK and on macOS.", "quantifier": "every sequence of actions of a program and its user, handlers that act included, every passage of time, every pair of toolkits", "why_tests_cant": "Tests run on one platform at a time, and compare no two of them.", "anchors": ["api/src/cmp/desktop_gui/impl/windows/windows_window.cpp", "api/src/cmp/desktop_gui/impl/gtk/gtk_window.cpp", "api/src/cmp/desktop_gui/impl/macos/macos_window.mm"]}
{"id": "C139", "title": "The floating-point parser takes numerals only", "statement": "parse_floating_point accepts a text exactly when it is an optional sign allowed by the format, digits of the radix with their separators and, if there is a radix character, one or more digits behind it. Every other well-formed text is refused with parse_failed, of the type that tells what is wrong.", "quantifier": "every well-formed text in every string type, every floating-point type and valid format", "why_tests_cant": "The sets of accepted and of refused texts are infinite.", "anchors": ["api/src/cmp/unicode/parsers.ipp: number_parser::parse_floating_point, parse_integer", "api/src/cmp/unicode/parsers.cpp: digit_character_to_integer, check_for_sign"]}
{"id": "C140", "title": "Numbers are the same in every type of string", "statement": "Formatting a truth value, an integer or a floating-point number gives the same characters whichever string type is asked for, and parsing gives the same value or the same error for the same characters, however the string type stores them, and whether or not char is signed.", "quantifier": "every two string types, every number, every format, every text", "why_tests_cant": "A test compares a few values in one or two of the types.", "anchors": ["api/src/cmp/unicode/formatters.ipp: number_formatter::format_integer, format_floating_point", "api/src/cmp/unicode/parsers.ipp: number_parser::parse_integer, parse_floating_point, parse_bool"]}
{"id": "C141", "title": "A place limit rounds the number", "statement": "With a limit of n places the text format_floating_point gives denotes the number with at most n places that is closest to the value; a value with at most n places is shown exactly.", "quantifier": "every finite value of every floating-point type whose integral part fits, every radix, every limit and number of places", "why_tests_cant": "Rounding goes wrong for particular values and numbers of places only.", "anchors": ["api/src/cmp/unicode/formatters.ipp: number_formatter::format_floating_point", "api/include/cmp/unicode/formats.hpp: floating_point_format"]}
{"id": "C142", "title": "Reading on after malformed text", "statement": "When a text input stream refuses malformed input, the program can catch the exception and read on: every well-formed character that follows is still read, in order, and the end of the stream is reached.", "quantifier": "every text with any number of damaged places of any kind, in every encoding form and byte order, every size of buffer, every kind of target string", "why_tests_cant": "Where the stream stands after an exception depends on the kind of damage and on what follows it; tests look at the first exception only.", "anchors": ["api/src/cmp/io/text_input_stream.ipp: read_utf8_code_point, read_utf16_code_point, finish_utf8_sequence, finish_utf16_sequence, append_all", "api/src/cmp/io/input_stream.ipp: is_at_end"]}
{"id": "C143", "title": "The same bytes are the same text everywhere", "statement": "What a text input stream reads depends on the bytes only: the same requests to the same bytes give the same answers and the same exceptions, whether the bytes are in a container or in a file, with whatever buffer, on whatever platform and machine.", "quantifier": "every sequence of bytes, well-formed or not, every sequence of requests, every encoding form and byte order, every buffer size, both platforms, both byte orders of the machine", "why_tests_cant": "Tests read well-formed samples on the machine they run on, with one size of buffer.", "anchors": ["api/src/cmp/io/text_input_stream.ipp", "api/src/cmp/io/input_stream.ipp: read", "api/src/cmp/io/input_resource.cpp: read", "api/src/cmp/io/impl/unix_like/unix_like_file.cpp: read", "api/src/cmp/io/impl/windows/windows_file.cpp: read"]}
{"id": "C144", "title": "A place noted in a text can be returned to", "statement": "A program that reads text may note get_position() of the resource between two characters and give it to set_position() later: it then reads the same characters, and gets the same exceptions, as after noting it. The position is the number of bytes read so far, and what is found there does not depend on how the program got there.", "quantifier": "every sequence of bytes, well-formed or not, every sequence of reads, notes and returns, every encoding form and byte order, every buffer size, containers and files", "why_tests_cant": "The buffer may be anywhere relative to the place noted and the place returned from; tests return to the beginning only.", "anchors": ["api/src/cmp/io/text_input_stream.ipp", "api/src/cmp/io/input_resource.cpp: read", "api/src/cmp/io/impl/ctr_essence.ipp: get_position, set_position_raw", "api/src/cmp/io/seekable_input_resource.ipp: set_position", "api/src/cmp/io/seekable_io_resource.ipp: set_position", "api/src/cmp/io/impl/unix_like/unix_like_file.cpp: get_position, set_position_raw", "api/src/cmp/io/impl/windows/windows_file.cpp: get_position, set_position_raw"]}
{"id": "C145", "title": "Values and lines of text can share a file", "statement": "A program may write values through a data stream and lines of text through a text stream to the same resource, in any order, and reads them back the same way: each value and each line arrives unchanged, and neither stream takes bytes that belong to the other.", "quantifier": "every sequence of values and lines, every width, every encoding form and byte order, every string type, every buffer size for writing and for reading, containers and files, both platforms", "why_tests_cant": "A stream that read ahead would be noticed only with the right mixture of items and the right size of buffer.", "anchors": ["api/src/cmp/io/data_input_stream.ipp", "api/src/cmp/io/data_output_stream.ipp", "api/src/cmp/io/text_input_stream.ipp: read_line", "api/src/cmp/io/text_output_stream.ipp", "api/src/cmp/io/input_resource.cpp: read", "api/src/cmp/io/output_resource.cpp: write"]}
{"id": "C146", "title": "A program at the console does the same on every machine", "statement": "A program that talks to its user through uin, uout and uerr, whatever it asks and says and however that depends on the answers, shows the same on the standard output and on the standard error, or ends with the same exception, on every platform and machine if the same text is typed: whatever the byte order, the sizes of the buffers, the way lines end when they are typed, and the pieces in which the input arrives.", "quantifier": "every program made of statements that write, flush, read a line, read a word or read a code point, every typed text, every pair of machines with their buffers, line ends and arrivals", "why_tests_cant": "Tests run on the machine at hand, with its buffers and one way of feeding the input.", "anchors": ["api/src/cmp/io/uio.cpp", "api/src/cmp/io/impl/unix_like/unix_like_uin.cpp", "api/src/cmp/io/impl/windows/windows_uin.cpp", "api/src/cmp/io/impl/unix_like/unix_like_uout.cpp", "api/src/cmp/io/impl/windows/windows_uout.cpp", "api/src/cmp/io/text_input_stream.ipp: read_line, operator >>", "api/src/cmp/io/text_output_stream.ipp: operator <<"]}
{"id": "C147", "title": "A file can be followed while it is written", "statement": "While one file object appends to a file, another file object on the same file gets, however the writes, flushes and reads are interleaved, the next bytes of those delivered so far, at least all written before the last flush: none lost, none twice, none out of order; it can tell when it has read all that is there, and goes on when more is written; once the writer is closed the file has everything written.", "quantifier": "every content of the file, every interleaving of writes, flushes and reads, every pair of buffer capacities and access modes, both platforms", "why_tests_cant": "What the reader's buffer holds when the file grows depends on the interleaving; tests try a few.", "anchors": ["api/src/cmp/io/impl/unix_like/unix_like_file.cpp", "api/src/cmp/io/impl/windows/windows_file.cpp", "api/src/cmp/io/input_resource.cpp", "api/src/cmp/io/output_resource.cpp", "api/src/cmp/io/io_buffer.cpp"]}
{"id": "C148", "title": "Two users of a file can take turns", "statement": "Two file objects on one file that take turns, each turn beginning with set_position and ending with flush, do together what one object does that makes all calls in that order; in particular what they append is all in the file, in that order.", "quantifier": "every content of the file, every sequence of turns with every sequence of reads, writes and seeks in each, every pair of buffer capacities and access modes, both platforms", "why_tests_cant": "Stale buffers and positions depend on what the other object did in between; tests try a few histories.", "anchors": ["api/src/cmp/io/impl/unix_like/unix_like_file.cpp", "api/src/cmp/io/impl/windows/windows_file.cpp", "api/src/cmp/io/seekable_io_resource.ipp", "api/src/cmp/io/io_buffer.cpp"]}
{"id": "C149", "title": "A buffer saves calls of the operating system", "statement": "With a buffer there are never more calls of the operating system to transfer bytes than without one. For output, whatever the system does, there are at most as many as there were non-empty writes, and at most two per capacity's worth of bytes plus one per flush and one for closing. For input there is at most one per capacity's worth of bytes read plus one per read that wanted more than there was, and two more.", "quantifier": "every content of the file, every history of writes and flushes or of reads, every buffer capacity and access mode, every behaviour of the system (for output), both platforms", "why_tests_cant": "The number of system calls is not visible to unit tests, and depends on how the sizes of the requests and the capacity fit together.", "anchors": ["api/src/cmp/io/input_resource.cpp", "api/src/cmp/io/output_resource.cpp", "api/src/cmp/io/io_buffer.cpp", "api/src/cmp/io/impl/unix_like/unix_like_file.cpp", "api/src/cmp/io/impl/windows/windows_file.cpp"]}
{"id": "C150", "title": "A file can be copied in blocks", "statement": "A program that opens a file to read and another one to write, reads blocks and writes what it got until nothing more comes, and closes both, ends with a copy: the second file has the bytes of the first, and no other file has changed.", "quantifier": "every content of both files, every size of the blocks, every pair of buffer capacities, both platforms", "why_tests_cant": "Tests copy a few small files with one block size; how blocks, two buffers and the end of the file fit together is different for every combination of sizes.", "anchors": ["api/src/cmp/io/file.cpp", "api/src/cmp/io/input_resource.cpp", "api/src/cmp/io/output_resource.cpp", "api/src/cmp/io/impl/unix_like/unix_like_file.cpp", "api/src/cmp/io/impl/windows/windows_file.cpp"]}
{"id": "C151", "title": "A program that checks its calls knows whether its copy is complete", "statement": "A program that copies a file in blocks, that looks at the result of every write, and that asks for the end of the file when nothing more comes, knows whether the copy is complete, whatever call the operating system refuses: it ends, and if it says that everything was copied then it was. Otherwise the copy has the first bytes of the file.", "quantifier": "every content of both files, every size of the blocks, every script of refused and short transfers, both platforms", "why_tests_cant": "A failure can happen at any one of the calls of the system, and unit tests cannot make a disk fail at each of them.", "anchors": ["api/src/cmp/io/file.cpp", "api/src/cmp/io/input_resource.cpp", "api/src/cmp/io/output_resource.cpp", "api/src/cmp/io/impl/unix_like/unix_like_file.cpp", "api/src/cmp/io/impl/windows/windows_file.cpp"]}
{"id": "C152", "title": "Passing failures can be waited out", "statement": "A program that copies a file in blocks and tries again whatever call failed (makes a new object if the file is not open, writes again what a write did not take, reads again if nothing came and the end was not reached) comes to an end as soon as the failures of the operating system do, and then the copy is complete: no failure leaves an object in a state in which trying again gives wrong bytes.", "quantifier": "every content of both files, every size of the blocks, every finite script of refused and short transfers, both platforms", "why_tests_cant": "The failures may come at any calls, one after another, and in any number; unit tests cannot make a disk fail and recover in every such way.", "anchors": ["api/src/cmp/io/file.cpp", "api/src/cmp/io/input_resource.cpp", "api/src/cmp/io/output_resource.cpp", "api/src/cmp/io/impl/unix_like/unix_like_file.cpp", "api/src/cmp/io/impl/windows/windows_file.cpp"]}
{"id": "C153", "title": "Numbers are shown as they were typed", "statement": "A program that reads a number from a text and shows it again in the same format shows what was typed: the same text if it was written as the library writes numbers, and otherwise (leading zeros, small letters) the same number as the library writes it.", "quantifier": "every text, every radix, format, type of number and string kind", "why_tests_cant": "There are too many texts and formats to try, and rounding decides case by case which fractions come back.", "anchors": ["api/src/cmp/unicode/formatters.ipp: number_formatter", "api/src/cmp/unicode/parsers.ipp: number_parser"]}
{"id": "C154", "title": "Numbers and their texts are in the same order", "statement": "A smaller number is not shown as a larger one, and a smaller number in a text is not read as a larger one: a program may compare prices or measurements before or after converting them.", "quantifier": "every pair of values and of texts, every radix, format and type", "why_tests_cant": "It is a statement about pairs of values; rounding errors that turn two neighbours round show for few pairs only.", "anchors": ["api/src/cmp/unicode/formatters.ipp: number_formatter::format_floating_point", "api/src/cmp/unicode/parsers.ipp: number_parser::parse_floating_point"]}
{"id": "C155", "title": "Different numbers are shown differently", "statement": "Two different values of a type are shown as different texts in the same format without a limit of places, so that a text can stand for a value, as a key or in a comparison of results.", "quantifier": "every pair of values, every radix, format and type", "why_tests_cant": "It is a statement about pairs of values, and the few pairs that share a text are neighbours that a test hardly tries.", "anchors": ["api/src/cmp/unicode/formatters.ipp: number_formatter::format_floating_point, format_integer"]}
{"id": "C156", "title": "A log survives the programs that write it", "statement": "Programs that append to a log (they open it, set the position to its end, write and flush) do not damage it, however often they are killed: what one run left is left by all later ones, what a run had flushed is in the log for good, a run that came to its end is in the log completely, and of a killed one there is an initial part of what it wrote.", "quantifier": "every number of runs, every sequence of writes and flushes of each, every moment at which a run is killed (within a system call, too), every buffer capacity, both platforms", "why_tests_cant": "A test cannot kill a process at every instruction, let alone several processes one after the other.", "anchors": ["api/src/cmp/io/file.cpp", "api/src/cmp/io/output_resource.cpp", "api/src/cmp/io/seekable_io_resource.ipp: set_position", "api/src/cmp/io/impl/unix_like/unix_like_file.cpp", "api/src/cmp/io/impl/windows/windows_file.cpp"]}
{"id": "C157", "title": "An interrupted copy can be resumed", "statement": "A program that copies a file in blocks and starts by setting the position of the target to its end, and that of the source to the same place, can be killed at any time and started again: the target always has an initial part of the source's bytes, never fewer than before, the source and all other files stay as they are, and when the program comes to its end at last the target is a complete copy.", "quantifier": "every content of the source, every block size not larger than the buffer, all buffer capacities, any number of starts, every moment at which the process is killed (within a system call, too), both platforms", "why_tests_cant": "A test cannot kill the process at every instruction of every start, for all contents and block sizes.", "anchors": ["api/src/cmp/io/file.cpp", "api/src/cmp/io/output_resource.cpp", "api/src/cmp/io/input_resource.cpp", "api/src/cmp/io/seekable_io_resource.ipp: set_position", "api/src/cmp/io/impl/unix_like/unix_like_file.cpp: position", "api/src/cmp/io/impl/windows/windows_file.cpp: position"]}
{"id": "C158", "title": "Texts can be converted in pieces and with a way around", "statement": "What has been converted from one type of string to another stays as it is whatever follows: converting two strings and joining the results gives the same as joining the strings and converting them, and a failure in the second piece is the same failure. Converting to UTF-32 first and from there to the wanted type succeeds exactly when the direct conversion does, with the same result.", "quantifier": "all pairs of source and target types, all strings, well-formed or not, all places of the cut at which the first piece can be converted", "why_tests_cant": "Tests convert some texts; the claim is about every sequence of code units, malformed ones included, and every cut.", "anchors": ["api/src/cmp/unicode/algorithms.ipp: convert_string, append_code_point", "api/src/cmp/unicode/by_code_point.cpp"]}
{"id": "C159", "title": "Numbers are read the same in every locale", "statement": "What a text is read as when it is parsed as an integer or a floating-point number does not depend on the locale a program has chosen with std::setlocale: the formats alone say what the text must look like.", "quantifier": "all locales (any mapping of the characters 0 to 255 by std::tolower), all texts, string types, number types and formats", "why_tests_cant": "Tests run in one locale; the claim is about all mappings of characters that locales may have, and all radixes.", "anchors": ["api/src/cmp/unicode/examiners.ipp: is_radix_digit", "api/src/cmp/unicode/parsers.cpp: digit_character_to_integer", "api/src/cmp/unicode/parsers.ipp: parse_integer, parse_floating_point"]}
{"id": "C160", "title": "Sorted texts stay sorted in every type of string", "statement": "Strings compare by their code units. Converting two strings to another type does not change which of them comes first, so a sorted list of strings is still sorted after all of them have been converted, and sorting is by code points.", "quantifier": "all pairs of source and target types, all pairs and lists of texts that can be converted", "why_tests_cant": "Tests compare a few strings; the claim is about all pairs of texts, and the encodings have boundaries of length that need not respect the order.", "anchors": ["api/src/cmp/unicode/algorithms.ipp: convert_string, append_code_point", "api/src/cmp/unicode/by_code_point.cpp"]}
{"id": "C161", "title": "Texts can be searched and cut in every type of string", "statement": "A text that is not empty is found in a converted string (with std::basic_string::find, that is by code units) exactly where it stands in the text, never in the middle of a character; what is in front of it and behind it is the conversion of what was in front of it and behind it. A string cut at each occurrence of a separator of one code unit falls into the conversions of the pieces of the text.", "quantifier": "all pairs of source and target types, all texts that can be converted, all parts and separators, all places", "why_tests_cant": "Tests search for some words; the claim is that no combination of neighbouring characters contains the units of another one by accident.", "anchors": ["api/src/cmp/unicode/algorithms.ipp: convert_string, append_code_point", "api/src/cmp/unicode/by_code_point.cpp"]}
{"id": "C162", "title": "Several writers can append to one container", "statement": "Several output resources on one container that take turns, each turn going to the end of the container with set_position, writing and flushing, lose nothing: everything they wrote is in the container behind what was there, in the order of the turns.", "quantifier": "every content and element size, every number of writers with every capacity of their buffers, every order and size of turns", "why_tests_cant": "Every writer has a position and a buffer of its own that go stale when another one writes; tests try a few orders.", "anchors": ["api/src/cmp/io/transparent_container_output_resource.ipp", "api/src/cmp/io/impl/ctr_essence.ipp: write_raw, set_position_raw", "api/src/cmp/io/seekable_output_resource.ipp: set_position", "api/src/cmp/io/output_resource.cpp: write, flush"]}
{"id": "C163", "title": "Text can be passed on through a container", "statement": "When a text output stream and a text input stream use one container in turn, and the output stream is flushed before the input stream is used, the characters, lines, words, numbers and truth values that are read are, one after the other, the pieces of what has been written and not been read, across all turns: nothing is lost, repeated or mixed up, and in the end the container holds everything that was written.", "quantifier": "every encoding and byte order, every capacity of the two buffers (the reading one holding a code unit), every number of turns and every sequence of entries and requests in them, every text that was there before", "why_tests_cant": "The two streams have positions and buffers of their own, and a turn may end inside a line, a word or the bytes that are buffered; tests try a few turns.", "anchors": ["api/src/cmp/io/text_input_stream.ipp: read_line, operator >>", "api/src/cmp/io/text_output_stream.ipp", "api/src/cmp/io/transparent_container_input_resource.ipp", "api/src/cmp/io/transparent_container_output_resource.ipp", "api/src/cmp/io/impl/ctr_essence.ipp: read_raw, write_raw, is_at_end"]}
{"id": "C164", "title": "A tied output is flushed before the input is used", "statement": "When the output resource is tied to the input resource, everything that has been written through the output stream is found by the input stream, without a flush.", "quantifier": "every encoding, byte order, capacity of the buffers, every sequence of turns, entries and requests", "why_tests_cant": "Whether written text is found depends on how much of it still is in a buffer when the input stream looks for the end; tests with text longer than the buffer do not notice.", "anchors": ["api/src/cmp/io/input_resource.cpp: read, tie", "api/src/cmp/io/text_input_stream.ipp: read_line, read_all, operator >>", "api/src/cmp/io/input_stream.ipp: is_at_end"]}
{"id": "C165", "title": "A text file can be read while it is written", "statement": "While a text output stream on one file object appends to a file, a text input stream on another object reads it: after each flush the reader gets the next characters, lines, words, numbers and truth values of the file, in order, and the lines it gets are the lines of the file.", "quantifier": "every encoding and byte order, every capacity of the buffers, both platforms, every number of turns and every sequence of entries and requests in them", "why_tests_cant": "The two objects have positions and buffers of their own, and a turn may end inside a line; tests try a few turns.", "anchors": ["api/src/cmp/io/text_input_stream.ipp: read_line, operator >>", "api/src/cmp/io/text_output_stream.ipp", "api/src/cmp/io/file.cpp: read, write", "api/src/cmp/io/impl/unix_like/unix_like_file.cpp", "api/src/cmp/io/impl/windows/windows_file.cpp"]}
{"id": "C166", "title": "A reader that comes too early can try again", "statement": "One stream writes text to a container while another one tries to read it character by character, at any time and without waiting for a flush: a try that comes too early fails with an exception, nothing is lost by it, whatever is read is the next character that was written, and a try does not fail if the next character was flushed.", "quantifier": "every encoding and byte order, every capacity of the buffers, every text and every order of writing, flushing and trying", "why_tests_cant": "Whether a try finds a part of a character depends on where the buffer happens to be emptied; tests try a few texts that fit the buffer.", "anchors": ["api/src/cmp/io/text_input_stream.ipp: read_code_point, operator >>", "api/src/cmp/io/text_output_stream.ipp: write_code_point_in_utf16", "api/src/cmp/io/output_resource.cpp: write, flush", "api/src/cmp/io/input_resource.cpp: read"]}
{"id": "C167", "title": "Values are passed on whole to a reader that does not wait", "statement": "One data stream writes values to a container while another one tries to read values of the same types, at any time: a try that comes too early throws the exception for reading past the end, nothing is lost by it, whatever is read is the next value that was written, never a part of it, a try does not fail if the next value was flushed, and at any time whole values are in the container. Both streams have the byte order of the machine.", "quantifier": "every sequence of types, every capacity of the buffers (that of the input holding the largest value), all values and every order of writing, flushing and trying", "why_tests_cant": "Whether a try finds a part of a value depends on where the buffer happens to be emptied; tests write a few values and read them afterwards.", "anchors": ["api/src/cmp/io/data_input_stream.ipp: operator >>", "api/src/cmp/io/data_output_stream.ipp: operator <<", "api/src/cmp/io/output_resource.cpp: write, flush", "api/src/cmp/io/input_resource.cpp: read"]}
{"id": "C168", "title": "Values are passed on whole through a file", "statement": "One file object is used by a data stream that appends values to a file, while a data stream on another file object tries to read values of the same types from its beginning, at any time: a try that comes too early throws the exception for reading past the end, nothing is lost by it, whatever is read is the next value of the file, never a part of it, a try does not fail if the next value was there at first or was flushed, and at any time whole values are in the file. Both streams have the byte order of the machine, the operating system does all it is asked to do, and no buffer is larger than one transfer.", "quantifier": "both platforms, every file with or without values in it, every sequence of types, every capacity of the buffers (that of the reader holding the largest value), all values and every order of writing, flushing and trying", "why_tests_cant": "Whether a try or another program finds a part of a value depends on where the buffer happens to be emptied; tests write a few values, close the file and read them.", "anchors": ["api/src/cmp/io/data_input_stream.ipp: operator >>", "api/src/cmp/io/data_output_stream.ipp: operator <<", "api/src/cmp/io/file.cpp: read, write", "api/src/cmp/io/output_resource.cpp: write, flush", "api/src/cmp/io/input_resource.cpp: read"]}
{"id": "C169", "title": "A reader of a text file that comes too early can try again", "statement": "One stream appends text to a file while another one, on another file object, tries to read it character by character, at any time: a try that comes too early fails with an exception, nothing is lost by it, whatever is read is the next character of the file, a try does not fail if the next character was there at first or was flushed, and the file always holds whole characters.", "quantifier": "both platforms, every encoding and byte order, every capacity of the buffers, every text and every order of writing, flushing and trying", "why_tests_cant": "Whether a try or another program finds a part of a character depends on where the buffer happens to be emptied; tests write a file, close it and read it.", "anchors": ["api/src/cmp/io/text_input_stream.ipp: read_code_point, operator >>", "api/src/cmp/io/text_output_stream.ipp: write_code_point_in_utf16", "api/src/cmp/io/file.cpp: read, write", "api/src/cmp/io/output_resource.cpp: write, flush"]}
{"id": "C170", "title": "Values are passed on whole in the byte order that is not that of the machine", "statement": "What C167 and C168 say about values passed on through a container or a file holds, too, when both data streams are given the byte order that is not that of the machine.", "quantifier": "machines of both byte orders, both platforms, containers and files, every capacity of the buffers, every sequence of types and values and every order of writing, flushing and trying", "why_tests_cant": "Tests write values and read them back with fresh streams and in one order; all interleavings with both byte orders are out of their reach.", "anchors": ["api/src/cmp/io/data_input_stream.ipp: operator >>", "api/src/cmp/io/data_output_stream.ipp: operator <<", "api/src/cmp/io/input_stream.ipp: read", "api/src/cmp/io/output_stream.ipp: reverse_write"]}
{"id": "C171", "title": "Lines in a log stay lines when programs are killed", "statement": "When programs that append lines to a log, one after the other, flush after each line, every line whose flush has returned is found as a line of its own in the log, whatever earlier or later programs left there when they were killed.", "quantifier": "every number of runs, all lines, every moment at which a run is killed (within a system call, too), every buffer capacity, both platforms, every content the log had before", "why_tests_cant": "A test cannot kill several processes one after the other at every instruction.", "anchors": ["api/src/cmp/io/file.cpp", "api/src/cmp/io/output_resource.cpp", "api/src/cmp/io/seekable_io_resource.ipp: set_position", "api/src/cmp/io/impl/unix_like/unix_like_file.cpp", "api/src/cmp/io/impl/windows/windows_file.cpp"]}
{"id": "C172", "title": "A file holds what was saved in it last", "statement": "When a program opens a file, writes something and closes the file, the file holds what was written, whatever it held before and whatever earlier programs that saved something in it left when they were killed.", "quantifier": "every content of the file, every number of runs, every sequence of writes and flushes of each, every moment at which a run is killed (within a system call, too), every buffer capacity, both platforms", "why_tests_cant": "Tests save in new files or something that is longer than what was there; a test cannot kill several processes one after the other at every instruction.", "anchors": ["api/src/cmp/io/file.cpp", "api/include/cmp/io/file.hpp", "api/src/cmp/io/output_resource.cpp", "api/src/cmp/io/impl/unix_like/unix_like_file.cpp: open", "api/src/cmp/io/impl/windows/windows_file.cpp: open"]}
{"id": "C173", "title": "Lines of text in a log can be read", "statement": "Every line of text that a program has logged and flushed is obtained by a program that reads the log line by line with a text input stream, whatever programs that wrote the log left there when they were killed.", "quantifier": "every number of runs, all lines, every moment at which a run is killed (within a system call, too), every buffer capacity of writers and readers, both platforms, strings of every type", "why_tests_cant": "A test cannot kill several processes one after the other at every instruction, and tests of text files read what was written completely.", "anchors": ["api/src/cmp/io/file.cpp", "api/src/cmp/io/output_resource.cpp", "api/src/cmp/io/text_input_stream.ipp", "api/src/cmp/io/impl/unix_like/unix_like_file.cpp", "api/src/cmp/io/impl/windows/windows_file.cpp"]}
{"id": "C174", "title": "Records in a file stay records when programs are killed", "statement": "When programs add records of one size to a file, one after the other, each record whose flush has returned is found at a multiple of the size, whatever earlier or later programs left there when they were killed.", "quantifier": "every size of records, every number of runs, all records, every moment at which a run is killed (within a system call, too), every buffer capacity, both platforms, every content the file had before", "why_tests_cant": "A test cannot kill several processes one after the other at every instruction.", "anchors": ["api/src/cmp/io/file.cpp", "api/src/cmp/io/output_resource.cpp", "api/src/cmp/io/seekable_io_resource.ipp: set_position", "api/src/cmp/io/impl/unix_like/unix_like_file.cpp", "api/src/cmp/io/impl/windows/windows_file.cpp"]}
