#!/usr/bin/env python3
"""Writes /verif/properties.jsonl from the table below (kept here so that the
list is easy to edit; the .jsonl file is the deliverable)."""
import json, os
U='api/src/cmp/unicode/'; IO='api/src/cmp/io/'; CO='api/src/cmp/core/'; G='api/src/cmp/desktop_gui/'
P=[]
def p(title, statement, quantifier, why, anchors):
    P.append(dict(id='C%02d'%(len(P)+1), title=title, statement=statement, quantifier=quantifier, why_tests_cant=why, anchors=anchors))

p("Appending a code point writes its standard UTF-8 form",
  "append_code_point / prepend_code_point / insert_code_point on a std::u8string accept every Unicode scalar value and add exactly the bytes the Unicode standard defines for it; values that are not scalar values are refused with invalid_code_point and the string is left unchanged.",
  "every 32-bit code point value, every string, every index",
  "1 112 064 scalar values times all strings and indexes; a test picks a few code points.",
  [U+'algorithms.ipp: insert_code_point, append_code_point, prepend_code_point', U+'examiners.ipp: is_code_point_valid'])
p("Appending a code point writes its standard UTF-16 / UTF-32 form",
  "append/prepend/insert_code_point on a std::u16string, std::u32string or std::wstring add exactly the standard UTF-16 code unit(s) or UTF-32 code unit of every Unicode scalar value.",
  "every scalar value, every string, every index",
  "The whole code space and every insertion point cannot be enumerated by examples.",
  [U+'algorithms.ipp: insert_code_point'])
p("Insertion only adds text: the rest of the string is preserved",
  "insert_code_point(s, cp, i) with i <= size leaves the units before i and from i on unchanged and in order around the inserted units, also when a code point needs several units; with i > size it throws out_of_range and changes nothing.",
  "every string kind, string, code point and index",
  "Multi-step insertion (one unit at a time with a moving index) must be right at every index of every string.",
  [U+'algorithms.ipp: insert_code_point'])
p("The code point validity test accepts exactly the Unicode scalar values",
  "is_code_point_valid(c) is true exactly when c <= 0x10FFFF and c is not in 0xD800..0xDFFF.",
  "every 32-bit value",
  "2^32 inputs; the existing test tries a handful.",
  [U+'examiners.ipp: is_code_point_valid, is_surrogate'])
p("Code unit and whitespace classification agree with the Unicode standard",
  "Every byte is exactly one of standalone, leading, trailing or never-used; leading/trailing surrogate tests are exactly the ranges D800-DBFF and DC00-DFFF; is_whitespace is true exactly on the code points with the Unicode White_Space property.",
  "every code unit and every code point",
  "Whole code space; boundary mistakes are invisible to a few samples.",
  [U+'examiners.ipp: is_standalone_byte, is_leading_byte, is_trailing_byte, is_leading_surrogate, is_trailing_surrogate, is_surrogate, is_whitespace'])
p("Iterating well-formed UTF-8 by code point yields exactly its code points",
  "A range-for over by_code_point of the UTF-8 encoding of any sequence of scalar values visits exactly that sequence, in order, and stops at the end.",
  "every finite sequence of Unicode scalar values",
  "Unbounded strings over more than a million characters.",
  [U+'by_code_point.cpp: by_code_point<char8_t>::const_iterator', U+'impl/impl.cpp: initialize_utf8_sequence'])
p("Iterating well-formed UTF-16 by code point yields exactly its code points",
  "A range-for over by_code_point of the UTF-16 encoding of any sequence of scalar values visits exactly that sequence, in order, and stops at the end.",
  "every finite sequence of Unicode scalar values",
  "The only UTF-16 iteration test uses a string without surrogate pairs.",
  [U+'by_code_point.cpp: by_code_point<char16_t>::const_iterator', U+'impl/impl.cpp: initialize_utf16_sequence'])
p("Reverse iteration yields the code points in reverse order",
  "Iterating from crbegin() to crend() over the UTF-8, UTF-16 or UTF-32 encoding of any sequence of scalar values visits exactly that sequence in reverse.",
  "every finite sequence of Unicode scalar values, each encoding",
  "Stepping back over every mix of sequence lengths cannot be enumerated.",
  [U+'by_code_point.cpp: const_iterator::retreat, crbegin, crend'])
p("Iterator arithmetic counts code points",
  "On well-formed text, advancing an iterator by n (it += n, it + n) moves n code points forward, it -= n moves n code points back, and each undoes the other.",
  "every well-formed text, every boundary position, every in-range n",
  "All positions and all offsets of all texts.",
  [U+'by_code_point.cpp: operator +=, operator -=, advance, retreat'])
p("Iterating arbitrary bytes is memory safe",
  "A range-for over by_code_point of any byte or unit string, valid or not, either visits code points or throws invalid_unicode_encoding / iterated_past_end; it never reads outside the string.",
  "every string of 8-bit, 16-bit or 32-bit units, including truncated and malformed ones",
  "Out-of-range reads depend on truncation position and are silent in ordinary tests.",
  [U+'by_code_point.cpp: const_iterator::reference::finish_sequence, const_iterator::finish_sequence'])
p("Stepping backwards over arbitrary text is memory safe",
  "Reverse iteration over any string, valid or not, never reads outside the string.",
  "every unit string",
  "Only malformed prefixes show the failure; a test needs to know which.",
  [U+'by_code_point.cpp: const_iterator::retreat'])
p("validate_string returns the end exactly for well-formed text",
  "validate_string never throws and never reads out of bounds; it returns the end iterator exactly when the text is well-formed, and otherwise an iterator at the first offending position.",
  "every unit string in each encoding",
  "The set of malformed strings is infinite (overlong forms, surrogates, truncations, out-of-range values).",
  [U+'algorithms.ipp: validate_string'])
p("Converting between encodings preserves the text",
  "to_u8string / to_u16string / to_u32string of a well-formed text give the target encoding of the same code points, so converting there and back is the identity.",
  "every sequence of scalar values and every pair of encodings",
  "Unbounded texts times pairs of encodings.",
  [U+'algorithms.ipp: convert_string, to_u8string, to_u16string, to_u32string, to_wstring'])
p("starts_with decides the code point prefix relation",
  "For well-formed texts, in the same or different encodings, starts_with(a,b) is true exactly when b's code points are a prefix of a's.",
  "every pair of texts and encodings",
  "Pairs of unbounded texts.",
  [U+'algorithms.ipp: starts_with'])
p("ends_with decides the code point suffix relation",
  "For well-formed texts, in the same or different encodings, ends_with(a,b) is true exactly when b's code points are a suffix of a's.",
  "every pair of texts and encodings",
  "Pairs of unbounded texts.",
  [U+'algorithms.ipp: ends_with'])
p("starts_with and ends_with survive arbitrary input",
  "starts_with and ends_with, being noexcept, return a value for every input: malformed text neither terminates the program nor reads out of bounds.",
  "every pair of unit strings",
  "Failures need particular malformed strings in particular positions.",
  [U+'algorithms.ipp: starts_with, ends_with', U+'by_code_point.cpp: finish_sequence'])
p("Formatting an integer and parsing it back is the identity",
  "For every integer type, value, radix 2..36, sign policy, thousands separator and string type: parse_integer(format_integer(x, f), f) == x.",
  "every representable value of every integer type, every valid format, every string encoding",
  "2^64 values times formats.",
  [U+'formatters.ipp: number_formatter::format_integer', U+'parsers.ipp: number_parser::parse_integer'])
p("Formatted integers are in canonical positional notation",
  "format_integer(x, f) is an optional sign ('-' for negative, '+' only for positive values under always_show), followed by the base-radix digits of |x| most significant first without leading zeros, with the chosen separator between groups of three counted from the right and nowhere else.",
  "every value and every valid format",
  "Unbounded combinations of values and formats.",
  [U+'formatters.ipp: number_formatter::format_integer'])
p("Every representable integer can be formatted",
  "format_integer is defined, without undefined behaviour, for every value of the argument's type including the minimum of a signed type, and prints that value.",
  "every value of every integer type",
  "Minimum values of all types and the interaction with promotion rules.",
  [U+'formatters.ipp: number_formatter::format_integer'])
p("Integer parsing accepts exactly optionally signed digit strings",
  "With no thousands separator, parse_integer accepts a text exactly when it is an optional sign allowed by the format followed by one or more digits of the radix, and returns its value.",
  "every text and every valid format",
  "Infinite language of accepted and rejected texts.",
  [U+'parsers.ipp: number_parser::parse_integer', U+'parsers.cpp: check_for_sign'])
p("Integer parsing reports the right failure",
  "parse_integer throws parse_failed with type empty_input for empty text, digit_character_expected for a character that is not a digit where one is required, multiple_signs for a second sign, thousands_separator_missing for a missing separator, negative_unsigned for a negative text with unsigned output; nothing else is thrown for well-formed text.",
  "every well-formed text and valid format",
  "Infinite inputs; which failure wins depends on the scan order.",
  [U+'parsers.ipp: number_parser::parse_integer', U+'parsers.cpp: get_next_digit, check_for_sign, check_for_thousands_separator'])
p("Integer parsing never returns a wrong value silently",
  "If the number written in the text does not fit the output type, parse_integer does not return a value; if it fits, it returns that value without undefined behaviour.",
  "every digit string of any length, every integer type and radix",
  "Overflow occurs only for particular lengths and digit patterns.",
  [U+'parsers.ipp: number_parser::prepend_digit, parse_integer'])
p("A format object always holds a usable radix",
  "An integer_format or floating_point_format never carries a radix outside 2..36: neither construction nor any sequence of setters can produce one, so formatting always terminates without undefined behaviour.",
  "every constructor argument and every sequence of setter calls",
  "Histories of setter calls are unbounded.",
  [U+'formats.cpp: integer_format, floating_point_format, set_radix', U+'formatters.ipp: format_integer'])
p("Formatting a bool and parsing it back is the identity",
  "parse_bool(format_bool(b, f), f) == b whenever the true and false strings are well-formed, non-empty and different; parse_bool accepts no other text.",
  "every pair of true/false strings and every string encoding",
  "Unbounded strings.",
  [U+'formatters.ipp: format_bool', U+'parsers.ipp: parse_bool'])
p("A formatted floating-point number denotes the number",
  "With no place limit, format_floating_point(x, f) is the sign, the integral digits and the fractional digits of x: read back as a positional numeral it denotes exactly x.",
  "every finite value of float, double and long double (IEEE 754 arithmetic), every valid format and string type",
  "Unbounded set of values; the tests use positive values only.",
  [U+'formatters.ipp: number_formatter::format_floating_point'])
p("Formatting a floating-point number terminates",
  "format_floating_point returns for every finite input and every valid format.",
  "every finite value, every radix 2..36, every place limit",
  "Non-termination cannot be observed by a finite test.",
  [U+'formatters.ipp: number_formatter::format_floating_point'])
p("Formatting a floating-point number and parsing it back is the identity",
  "parse_floating_point(format_floating_point(x, f), f) == x.",
  "every finite value of every floating-point type and every valid format without place limit",
  "Unbounded values.",
  [U+'formatters.ipp: format_floating_point', U+'parsers.ipp: parse_floating_point'])
p("Radix place limits are respected",
  "With limit exactly_equal n the output has exactly n digits after the radix character; with up_to n it has at most n; parsing rejects texts that violate the limit.",
  "every value, every n, every text",
  "Unbounded n and values.",
  [U+'formatters.ipp: format_floating_point', U+'parsers.ipp: parse_floating_point'])
p("count_digits counts the digits",
  "count_digits(n, r) for n >= 0 and r >= 2 is the length of n written in base r (1 for zero).",
  "every n and r of every integer type",
  "All values and radixes.",
  [CO+'general.ipp: count_digits'])
p("Approximate comparison is an equivalence that identifies close values",
  "cmp_equal(a,b,k) is reflexive, symmetric and transitive; cmp_not_equal is its negation; values equal to k decimal places compare equal and values closer than 10^-k compare equal.",
  "every pair/triple of values and every k (exact arithmetic)",
  "Continuum of values; failures happen at digit boundaries.",
  [CO+'general.ipp: cmp_equal, cmp_not_equal'])
p("Buffered output is transparent",
  "For every sequence of write and flush calls on a fresh output resource over a byte container, and every buffer capacity, after a final flush the content is the concatenation of everything written, exactly as with no buffer; before the flush the content is a prefix of it.",
  "every operation sequence, every block size, every capacity",
  "Interaction of block sizes with capacity over unbounded histories.",
  [IO+'output_resource.cpp: write, flush, write_buffered', IO+'io_buffer.cpp: write', IO+'impl/ctr_essence.ipp: write_raw'])
p("The reported write position is the number of bytes written",
  "On an output resource get_position() after any sequence of writes and flushes equals the total number of bytes written, whatever part of it is still buffered; seeking flushes first so no written byte is lost.",
  "every operation sequence and capacity",
  "Unbounded histories.",
  [IO+'impl/ctr_essence.ipp: get_position', IO+'seekable_output_resource.ipp: set_position'])
p("Buffered input is transparent",
  "For every sequence of read calls on an input resource over a byte container and every buffer capacity, the bytes returned are those the same calls return without a buffer: consecutive blocks of the content.",
  "every sequence of block sizes, every capacity, every content",
  "Failures depend on block sizes relative to capacity and buffer fill state.",
  [IO+'input_resource.cpp: read, fill, read_buffered', IO+'impl/ctr_essence.ipp: read_raw'])
p("Seeking an input resource behaves as documented",
  "set_position(n, begin) makes the next read start n elements from the start, (n, end) n elements before the end, (n, current) n elements after the current position, whatever was read before, for every buffer capacity.",
  "every history of reads and seeks and every capacity",
  "Relative seeks interact with how much of the buffer was consumed.",
  [IO+'seekable_input_resource.ipp: set_position', IO+'impl/ctr_essence.ipp: set_position_raw'])
p("Containers of wide elements can be read through a buffer",
  "Reading a std::u16string / u32string / wstring container resource gives its bytes in order for every buffer capacity, as for byte containers.",
  "every content, capacity and read sequence",
  "Only element size > 1 with a non-zero capacity shows a difference.",
  [IO+'impl/ctr_essence.ipp: read_raw, set_position_raw', IO+'seekable_transfer_resource.ipp: go_back, go_forward'])
p("Writing to a container overwrites and extends exactly",
  "A write of n bytes at position p replaces bytes p..p+n-1, extends the content only as far as p+n, and touches nothing else; it never writes outside the container.",
  "every content, position and block",
  "Partially overlapping writes at every offset and element size.",
  [IO+'impl/ctr_essence.ipp: write_raw'])
p("Mixed reads and writes on one resource are coherent",
  "On a read/write container resource every read returns what an unbuffered resource would return: earlier writes are visible, nothing is lost or duplicated, for every interleaving of read, write, flush and seek and every capacity.",
  "every interleaving of operations and every capacity",
  "Unbounded histories over a shared buffer.",
  [IO+'input_resource.cpp', IO+'output_resource.cpp', IO+'seekable_io_resource.ipp'])
p("A read never reports more than was asked or is there",
  "read(data, n) returns at most n and at most the number of remaining bytes, writes nothing beyond the reported bytes, and returns 0 at the end.",
  "every state of an input resource and every n",
  "All states and sizes.",
  [IO+'input_resource.cpp: read_buffered', IO+'io_buffer.cpp: read', IO+'impl/ctr_essence.ipp: read_raw'])
p("A tied output resource is flushed before input is read",
  "After tie(out), every read on the input resource first delivers everything written to out so far.",
  "every interleaving of writes to out and reads",
  "Unbounded interleavings.",
  [IO+'input_resource.cpp: read, tie'])
p("Binary values survive a write/read round trip in either endianness",
  "A value written with data_output_stream << and read back with data_input_stream >> using the same endianness is unchanged, and the bytes on the resource are in the requested byte order.",
  "every value of every width, both stream endiannesses, both machine endiannesses",
  "All values and widths; the tests use the native order only.",
  [IO+'data_input_stream.ipp: operator >>', IO+'data_output_stream.ipp: operator <<', IO+'input_stream.ipp: read', IO+'general.cpp: invert_endianness'])
p("Reversing bytes is an involution that reverses",
  "invert_endianness reverses any block of bytes and applying it twice restores the block; get_opposite_endianness is its own inverse.",
  "every block of every length",
  "All lengths and contents.",
  [IO+'general.cpp: invert_endianness', IO+'general.ipp: get_opposite_endianness'])
p("Text written by a text stream is read back unchanged",
  "Code points written to a text_output_stream in UTF-8, UTF-16 or UTF-32 with either byte order are read back unchanged by a text_input_stream with the same encoding and byte order (texts without carriage returns).",
  "every sequence of scalar values, every encoding, both byte orders, both machine byte orders",
  "Unbounded texts.",
  [IO+'text_output_stream.ipp: write_code_point_in_utf8/16/32', IO+'text_input_stream.ipp: read_utf8/16/32_code_point, read_all'])
p("A byte order mark selects the byte order of the rest",
  "If the resource starts with a byte order mark, read_bom returns U+FEFF and sets the endianness so that the rest is decoded correctly, whatever the stream's initial endianness.",
  "every text, both byte orders, UTF-16 and UTF-32",
  "Unbounded texts.",
  [IO+'text_input_stream.ipp: read_utf16_bom, read_utf32_bom', IO+'text_output_stream.ipp: write_bom'])
p("read_bom on text without a mark returns the first code point",
  "If the resource does not start with a byte order mark, read_bom returns the first code point of the text, decoded with the stream's endianness.",
  "every text not starting with a mark, UTF-16 and UTF-32, both byte orders",
  "Depends on high bytes of the first code unit.",
  [IO+'text_input_stream.ipp: read_utf16_bom, read_utf32_bom'])
p("Reading lines splits the text at line ends only",
  "Repeated read_line returns the lines of the text in order; LF and CR LF end a line; every other character is part of a line.",
  "every text",
  "Unbounded texts with arbitrary placement of CR and LF.",
  [IO+'text_input_stream.ipp: append_line, read_line, read_filtered_code_point'])
p("Reading words skips whitespace and loses nothing",
  "stream >> string returns the next maximal run of non-whitespace characters; repeated reading yields all words of the text in order.",
  "every text",
  "Unbounded texts.",
  [IO+'text_input_stream.ipp: operator >> (T&)'])
p("Numbers written to a text stream separated by spaces are read back",
  "Writing integers (or bools) with << separated by a space and reading with >> gives the same values, in every encoding and byte order.",
  "every list of values, every encoding and byte order",
  "Unbounded lists and values.",
  [IO+'text_output_stream.ipp: operator << (T)', IO+'text_input_stream.ipp: operator >> (T&)'])
p("A file only allows the access it was opened for",
  "read on a write_only file and write on a read_only file throw invalid_access_mode and have no effect on file content or position.",
  "every file state and call",
  "All states.",
  [IO+'file.cpp: basic_file::read, basic_file::write'])
p("File reads tolerate short reads from the operating system",
  "If the operating system returns fewer bytes than requested although more follow, a read still returns the file's bytes in order, never more than requested.",
  "every sequence of OS answers",
  "Short reads cannot be provoked on ordinary files by a test.",
  [IO+'impl/unix_like/unix_like_file.cpp: read_block, read_raw'])
p("File writes are complete or reported",
  "After write calls and flush/close, either all bytes are in the file in order or a shortfall is reported to the caller.",
  "every sequence of OS answers including short writes and failures",
  "Short writes (disk full, signals) cannot be scheduled by a test.",
  [IO+'impl/unix_like/unix_like_file.cpp: write_block, write_raw', IO+'output_resource.cpp: flush'])
p("Reopening a file starts afresh",
  "After open() of another path on the same object, reads return that file's bytes from its beginning and is_at_end refers to that file.",
  "every history before the reopen",
  "Depends on what was buffered before.",
  [IO+'impl/unix_like/unix_like_file.cpp: open, close', IO+'file.cpp: is_at_end'])
p("The test module counts every test exactly once",
  "run_tests returns the number of test functions that returned false; successes plus failures equals the number of test functions; each failure is recorded with the index and name of its test and the stage after the last completed one.",
  "every list of test functions and stage counts",
  "Unbounded lists.",
  [CO+'test_module.ipp: run_tests, start_test, end_stage, end_test'])
p("The message queue is first in first out and empty between tests",
  "pop_message returns messages in the order pushed, message::empty when none is left, and no message survives the end of a test.",
  "every sequence of push and pop",
  "Unbounded sequences.",
  [CO+'test_module.ipp: push_message, pop_message, clear_message_queue, end_test'])
p("Zero padding gives equal-width decimal indexes",
  "The printed test index is the decimal index left-padded with zeros to the width of the number of tests; no index writes outside the string.",
  "every index and number of tests",
  "Widths change only at powers of ten; indexes may exceed the count.",
  [CO+'test_module.ipp: zero_pad, count_digits'])
p("The application instance pointer designates a live application",
  "app() returns the application constructed last and still alive, or null when there is none.",
  "every sequence of constructions, moves and destructions",
  "Unbounded lifetimes.",
  [CO+'application.cpp: application, get_instance_ptr'])
p("Window events reach exactly the window they are for",
  "For every sequence of opening, moving and closing windows, an event for a native window is delivered to the window object that currently owns it, closed windows receive nothing, and a close request refused by the handler leaves the window registered.",
  "every sequence of window operations and events",
  "Unbounded histories of opens, moves and closes.",
  [G+'impl/windows/windows_window.cpp: open, close, fix_association, forward_*_event_to_window', G+'impl/gtk/gtk_window.cpp'])
p("A copied or moved opaque container resource is independent",
  "After copying or moving an opaque container resource, reads and writes through the new object concern its own content and leave the other object's content alone.",
  "every content and operation sequence",
  "Aliasing is only visible under particular interleavings.",
  ['api/include/cmp/io/opaque_container_io_resource.hpp: copy/move operations', IO+'impl/ctr_essence.ipp: m_content_ptr'])
p("Key names identify keys",
  "to_u8string(key) is defined for every key and different keys have different names; native key codes translate to the key they denote and every unlisted code to unknown.",
  "every key and every native key code",
  "All 2^32 native codes.",
  [G+'general.cpp: to_u8string', G+'impl/windows/windows_window.cpp: translate_key_code', G+'impl/gtk/gtk_window.cpp: translate_key_code'])
p("A parsed floating-point text yields the number it denotes",
  "parse_floating_point(s, f) for a numeral s of the format (optional sign, integral digits, radix character, fractional digits) is the number s denotes, whenever that number is a value of the type.",
  "every numeral text of every valid format, every floating-point type",
  "Unbounded set of texts; the tests parse positive numbers only.",
  ['api/src/cmp/unicode/parsers.ipp: parse_floating_point, append_digit'])
p("Invalid radixes in floating-point formats are reported",
  "The floating_point_format constructor throws invalid_radix exactly for radixes outside 2..36, and after set_radix with such a radix every format and parse call throws invalid_radix.",
  "every radix, value and text",
  "All 2^32 radix values.",
  ['api/src/cmp/unicode/formats.cpp: floating_point_format', 'api/src/cmp/unicode/formatters.ipp: format_floating_point', 'api/src/cmp/unicode/parsers.ipp: parse_floating_point'])
p("The reported position and end are right",
  "After any sequence of reads, writes, flushes and seeks on a container resource get_position() is the byte position at which the next read or write takes place, and is_at_end() tells whether that is the end of the content.",
  "every history, capacity and element size",
  "Depends on the interplay of buffer and container positions over unbounded histories.",
  [IO+'impl/ctr_essence.ipp: get_position, is_at_end'])
p("go_back and go_forward move the position by the given amount",
  "go_back(n) makes the next read or write take place n elements before, go_forward(n) n elements after the current position, for every buffer capacity.",
  "every history, capacity and amount",
  "Depends on what is buffered at the time of the call.",
  [IO+'seekable_transfer_resource.ipp: go_back, go_forward', IO+'impl/ctr_essence.ipp: set_position_raw'])
p("Malformed stream input is refused, never misread",
  "Whatever bytes a text_input_stream reads, a code point is returned exactly when its encoding stands at the current place; otherwise read_past_end or invalid_unicode_encoding is thrown. Reading a line, a word or the whole input always ends, with a string or with one of the exceptions read_past_end, invalid_unicode_encoding and invalid_code_point.",
  "every byte sequence, encoding form, byte order, machine byte order and target string kind",
  "Every byte sequence is a possible input.",
  [IO+'text_input_stream.ipp: read_utf8_code_point, read_utf16_code_point, read_utf32_code_point, read_line, read_all, operator >>'])
p("A file behaves as a sequence of bytes with a position",
  "For every sequence of reads, writes, flushes and seeks on a file object, each call has the effect and the result it would have on the file's bytes and one position; get_position and is_at_end are right throughout; after close the file has exactly the bytes this gives.",
  "every content, history, buffer capacity, access mode and both platforms",
  "Buffer state, file offset and read-ahead interact over unbounded histories.",
  [IO+'file.cpp: read, write, is_at_end', IO+'impl/unix_like/unix_like_file.cpp', IO+'impl/windows/windows_file.cpp', IO+'input_resource.cpp', IO+'output_resource.cpp'])
p("A file object affects its own file only",
  "Whatever is called on a file object and however the operating system reacts, no other file changes; and file objects on different files, used in any interleaving, each behave as if alone.",
  "every history, interleaving and operating system behaviour",
  "Unbounded interleavings and failures.",
  [IO+'impl/unix_like/unix_like_file.cpp: open, read_raw, write_raw, close', IO+'impl/windows/windows_file.cpp'])
p("Opening a file opens, creates or fails as requested",
  "open returns whether the file is open afterwards. With if_file_not_there fail a file that does not exist is not created and open returns false; with create it is created empty; the bytes of an existing file are never discarded.",
  "every set of files, mode, platform and operating system behaviour",
  "Every state of the file system.",
  [IO+'impl/unix_like/unix_like_file.cpp: open', IO+'impl/windows/windows_file.cpp: open'])
p("A moved file object takes over the file",
  "After moving a file object, the new object reads and writes the file as the old one would have, and destroying the old object has no effect.",
  "every state of the moved object",
  "Needs the destructor of the moved-from object to run while the other is in use, in every buffer state.",
  ['api/include/cmp/io/impl/unix_like/unix_like_file.hpp: file(file&&)', IO+'impl/unix_like/unix_like_file.cpp: ~file, close', 'api/include/cmp/io/io_buffer.hpp'])
p("Seeks to before the beginning of a file are harmless and the same everywhere",
  "set_position to a place before the beginning leaves the file at a definite place - the beginning - in every state and on every platform.",
  "every history, distance, reference and both platforms",
  "Platform differences and every buffer state.",
  [IO+'impl/unix_like/unix_like_file.cpp: set_position_raw', IO+'impl/windows/windows_file.cpp: set_position_raw', IO+'seekable_io_resource.ipp: set_position'])
p("A closed window can be opened again",
  "open on a window object without an open window returns true exactly when the native window could be created, and the object then gets that window's events; on an object with an open window it returns false and changes nothing.",
  "every history of window operations and events",
  "Depends on how the object lost its window: by a failure, a move or a close.",
  [G+'impl/windows/windows_window.cpp: open, close', G+'impl/gtk/gtk_window.cpp: open, close', G+'impl/macos/macos_window.mm: open, close'])
p("An idle turn of the event loop updates every open window once",
  "When there is no event to handle, run calls update of every open window's object exactly once, in the order of opening, whatever the update functions do.",
  "every history and every behaviour of the update functions",
  "Update functions may open, close and move windows while the loop runs.",
  [G+'impl/windows/windows_desktop_gui_application.cpp: run', G+'impl/gtk/gtk_desktop_gui_application.cpp: run', G+'impl/macos/macos_desktop_gui_application.mm: run', G+'impl/common/common_window.cpp: update_window'])
p("Update times add up",
  "The delta_seconds a window's update gets is never negative, and total_seconds is the sum of all deltas that window was given, also when the window object was moved in between.",
  "every history and every passage of time",
  "Unbounded histories of moves and updates at arbitrary times.",
  [G+'impl/common/common_window.cpp: update_window', G+'impl/windows/windows_window.cpp: open, move operations'])
p("The event loop ends with the last window",
  "run returns as soon as, and not before, no window is open.",
  "every history of window operations and events",
  "Unbounded histories of opens, moves and closes.",
  [G+'impl/windows/windows_desktop_gui_application.cpp: run', G+'impl/gtk/gtk_desktop_gui_application.cpp: run', G+'impl/macos/macos_desktop_gui_application.mm: run'])
p("Prompts appear before the program waits",
  "When a read from the standard input has to wait for the user, everything the program sent to the standard output before that read has already been shown, flushed or not.",
  "every sequence of writes, flushes and reads, every splitting of the input into pieces, every buffer capacity, both platforms; for bytes and for text",
  "Which read waits depends on how the input arrives and on what earlier reads left in the buffer.",
  [IO+'impl/unix_like/unix_like_uin.cpp: stdin_resource', IO+'impl/windows/windows_uin.cpp: stdin_resource', IO+'input_resource.cpp: read, tie', IO+'uio.cpp: uin, uout'])
p("Standard output and error get all text in order",
  "After a flush, and at the latest when the program ends, each of the two channels has shown exactly what was sent to it, in order and once; at any time before, a beginning of that.",
  "every sequence of writes, flushes and reads, every buffer capacity, every amount the system takes at once",
  "Unbounded sequences; the system may take fewer bytes than it is given.",
  [IO+'impl/unix_like/unix_like_uout.cpp: write_raw', IO+'impl/windows/windows_uout.cpp: write_raw', IO+'output_resource.cpp: write, flush', IO+'output_stream.ipp: ~output_stream'])
p("Answers are returned as typed",
  "Reading characters, lines and words from uin returns the text the user typed, in order, whatever the pieces in which it arrives and whatever is written in between; CR LF counts as a line feed.",
  "every typed text of Unicode scalar values, every splitting, every sequence of questions whose answers were typed completely",
  "All texts times all splittings times all programs.",
  [IO+'uio.cpp: uin', IO+'impl/windows/windows_uin.cpp: stdin_stream', IO+'impl/unix_like/unix_like_uin.cpp: stdin_stream', IO+'text_input_stream.ipp: read_line, operator>>'])
p("No waiting for input that is not needed",
  "A read from the standard input waits only as long as the bytes given to the program so far are fewer than those needed for everything asked for; a question whose answer has been received completely does not wait.",
  "every sequence of calls and every splitting of the input",
  "A needless wait is a hang that depends on the timing of the input.",
  [IO+'input_resource.cpp: read_buffered', IO+'impl/unix_like/unix_like_uin.cpp: read_raw', IO+'text_input_stream.ipp: read_line, operator>>'])
p("Bytes of the standard input come once and in order",
  "Reads from uin_resource give the bytes of the standard input in order, none twice and none left out, never more than asked for; a read gives none only at the end of the input. This holds also after a read that failed.",
  "every sequence of reads, every splitting, failures at any point",
  "Failures of the system cannot be provoked at every point.",
  [IO+'impl/unix_like/unix_like_uin.cpp: read_raw', IO+'impl/windows/windows_uin.cpp: read_raw', IO+'input_resource.cpp: read_buffered'])
p("The end of the standard input",
  "When the standard input ends (a file or pipe), the last line or word is returned even if no line end or white space follows it, read_all returns all of it, and later questions report the end.",
  "every text given as standard input",
  "All texts and all splittings.",
  [IO+'impl/unix_like/unix_like_uin.cpp: is_at_end', IO+'impl/windows/windows_uin.cpp: is_at_end', IO+'text_input_stream.ipp: append_line, append_all, operator>>'])
p("The standard streams can be used from start to end of main",
  "The static objects uin, uout, uerr and their resources are constructed before use, and no constructor or destructor uses one that is not alive.",
  "header-only and compiled library, both platforms",
  "The order of static objects is not visible to a test, and its undefined behaviour may seem to work.",
  [IO+'definitions.cpp', IO+'uio.cpp: uin, uout, uerr', IO+'impl/unix_like/unix_like_uin.cpp: uin_resource', IO+'impl/unix_like/unix_like_uout.cpp: uout_resource'])
p("A text file is read as it was written",
  "Text written to a file through a text output stream (characters, strings of any kind, integers, booleans, byte order marks, with flushes anywhere) is what a text input stream on that file returns afterwards, in whatever mix of characters, lines, words, numbers and whole rests it is asked for; CR LF counts as a line feed.",
  "every sequence of entries and requests, every encoding, byte order and buffer capacity, both platforms, with and without an existing file",
  "All texts times all ways of writing and reading them times buffer boundaries.",
  [IO+'text_output_stream.ipp: operator<<', IO+'text_input_stream.ipp: operator>>, read_line, read_all', IO+'file.cpp: read, write', IO+'output_stream.ipp: ~output_stream'])
p("Requests of different kinds can be mixed",
  "Reading characters, lines, words, numbers, booleans or the rest of the input in any order returns consecutive pieces of the text: nothing is skipped, repeated or swallowed by a previous request except the line end or the one white space character that ended its piece.",
  "every text and every sequence of requests, every encoding, byte order, buffer capacity and target string type",
  "Each kind of request leaves the stream at a place where every other may go on.",
  [IO+'text_input_stream.ipp: operator>>, read_line, append_line, read_all, is_at_end'])
p("Text can be appended to a file",
  "Text written after setting the position of an existing file to the end follows what was there; the file then holds the encoding of both texts, one after the other.",
  "every existing text, every sequence of entries, every encoding and byte order, both platforms",
  "All texts times buffer states.",
  [IO+'seekable_io_resource.ipp: set_position', IO+'text_output_stream.ipp: operator<<', IO+'file.cpp: write'])
p("Text read from a failing system is right or refused",
  "Whatever the operating system does while a text file is read (fewer bytes than asked for, failures at any call), each request returns the right piece of the text, or an exception is thrown; wrong text is never returned.",
  "every text, every sequence of requests, every behaviour of the operating system after opening",
  "Short reads and failures cannot be provoked at every point.",
  [IO+'impl/unix_like/unix_like_file.cpp: read_raw', IO+'impl/windows/windows_file.cpp: read_raw', IO+'text_input_stream.ipp: read_code_point'])
p("Text streams respect the access mode of the file",
  "Writing text through a stream on a file opened for reading, or reading text through a stream on a file opened for writing, throws invalid_access_mode.",
  "every request, every sequence of entries with a text, every encoding and file state",
  "Each way of writing and reading takes its own path to the resource.",
  [IO+'file.cpp: read, write', IO+'text_output_stream.ipp: operator<<', IO+'text_input_stream.ipp: operator>>, read_line'])
p("Text that was accepted is in the file",
  "When text has been written to a file through a stream and stream and file have been destroyed without an exception, the text is in the file.",
  "every sequence of entries, every behaviour of the operating system, every buffer capacity",
  "Requires failures at every single call of the operating system.",
  [IO+'output_stream.ipp: write, flush', IO+'output_resource.cpp: flush', IO+'impl/unix_like/unix_like_file.cpp: write_raw', IO+'impl/windows/windows_file.cpp: write_raw'])
p("A text can be copied to another file in another encoding",
  "Reading a text file character by character and writing each to a second file, in any encoding and byte order, gives the encoding of the same text, with LF for CR LF, and leaves the first file and all others unchanged.",
  "every text, every pair of encodings and byte orders, every pair of buffer capacities, both platforms",
  "All texts times all pairs of encodings; the two files share the operating system's state.",
  [IO+'text_input_stream.ipp: operator>>', IO+'text_output_stream.ipp: operator<<', IO+'file.cpp: read, write'])
p("Files with a byte order mark can be read with any byte order",
  "After read_bom on a file that begins with a byte order mark, all further requests return the text behind the mark, whichever byte order the stream was constructed with.",
  "every text, encoding, byte order of the file and of the stream, sequence of requests and buffer capacity",
  "All texts times all requests times byte orders.",
  [IO+'text_input_stream.ipp: read_bom', IO+'file.cpp: read'])
p("A text I/O stream continues a text in its byte order",
  "When a text I/O stream has read the byte order mark of a file, what it writes is in the byte order of that mark, so that the file remains one text.",
  "every text, every sequence of entries, every encoding and byte order",
  "Depends on the relation of two base classes over all byte orders.",
  [IO+'text_io_stream.ipp', IO+'text_input_stream.ipp: read_bom', IO+'text_output_stream.ipp: operator<<'])
W3 = [G+'impl/windows/windows_window.cpp', G+'impl/gtk/gtk_window.cpp', G+'impl/macos/macos_window.mm']
p("A window's title is the one it was given",
  "get_title returns the title last given to the window by its constructor, open or set_title, whatever else was done with this and other windows, and also after the window object was moved.",
  "every well-formed UTF-8 title, every history of opening, naming, showing, hiding, moving and closing windows, three toolkits",
  "All titles times all histories; each toolkit has its own conversions.",
  [x+': get_title, set_title, open' for x in W3])
p("Objects without window are harmless",
  "A window object whose window could not be created, was moved away or was closed has an empty title, and naming, showing and hiding it changes no window.",
  "every history, every such object and request, three toolkits",
  "Needs every way in which an object can lose its window, on three systems.",
  [x+': get_title, set_title, show, hide' for x in W3])
p("Hiding and showing a window leaves it as it was",
  "A window is on the screen exactly while it is shown; it appears first in the mode given to open, and afterwards in the state in which the user left it.",
  "every history of opening, showing, hiding, moving and closing windows and of the user maximizing, minimizing and restoring them, three toolkits",
  "All histories; depends on the state of the system's window.",
  [x+': open, show, hide' for x in W3])
p("A refused title changes nothing",
  "A title that is not valid is refused with an exception, and neither the window object nor any window has changed: the old title stays, an unopened object can still be opened, and nothing is left over from a constructor that failed.",
  "every byte sequence as title, every state, three toolkits",
  "All byte sequences; the exception may leave at several points.",
  [x+': set_title, open, window' for x in W3] + ['api/src/cmp/unicode/algorithms.ipp: convert_string'])
p("A new window has the size asked for and is in the middle of the screen",
  "On Windows the inside of a new window has the width and height given to open, and the window including its frame is centred on the screen to within one pixel. The program's later requests, and the user's maximizing and minimizing it, do not change that.",
  "every size, every screen and every width of the frame's sides (all below 2^28), every history before",
  "All sizes and screens; rounding and negative distances (windows larger than the screen).",
  [G+'impl/windows/windows_window.cpp: open'])
p("Values written to a file can be read on another machine",
  "Values written to a file through a data output stream are in the file in the byte order asked for, whatever machine writes, and a data input stream with that byte order gives the same values on any machine; appended values follow what the file had. No other file changes.",
  "every sequence of values of every size, byte orders of both machines and of the file, all buffer capacities, access modes, older contents, both platforms",
  "All values times byte orders; the machines' byte orders are fixed where tests run.",
  [IO+'data_output_stream.ipp: operator<<', IO+'data_input_stream.ipp: operator>>', IO+'file.cpp: read, write', 'api/include/cmp/io/data_input_stream.hpp: data_input_stream'])
p("A file can be used as a table of records",
  "When a file is used through one data I/O stream as a table of records with fields of fixed sizes, reading, replacing and appending records and fields in any order, each record or field read is the one last written there, and at the end the file has the bytes of the table.",
  "every layout, table, sequence of operations, byte order, buffer capacity and machine, both platforms",
  "All sequences of operations; depends on the buffer's state at each change between reading and writing.",
  ['api/include/cmp/io/data_io_stream.hpp: data_io_stream', IO+'seekable_io_resource.ipp: set_position', IO+'file.cpp: read, write'])
p("Reading values until the end gives all of the file",
  "A program that reads values of one size until is_at_end gets values whose bytes are exactly those of the file, or read_past_end if the last value is incomplete, whatever the file has.",
  "every file content, value size, byte order, buffer capacity, both platforms",
  "All contents and lengths, relative to all buffer sizes.",
  [IO+'data_input_stream.ipp: operator>>', IO+'input_stream.ipp: is_at_end', IO+'file.cpp: read, is_at_end'])
p("Values read from a failing system are right or refused",
  "Whatever the operating system does while values are read from a file (fewer bytes than asked for, failures at any call), the values are those of the file, or read_past_end is thrown; wrong values are never returned.",
  "every file content, sequence of sizes, every behaviour of the operating system after opening",
  "Short reads and failures cannot be provoked at every point.",
  [IO+'impl/unix_like/unix_like_file.cpp: read_raw', IO+'impl/windows/windows_file.cpp: read_raw', IO+'input_stream.ipp: read'])
p("Data streams respect the access mode of the file",
  "Writing a value to a file opened for reading, or reading a value from a file opened for writing, throws invalid_access_mode.",
  "every file, value, byte order and machine, every way of opening, both platforms",
  "All values and states of the file.",
  [IO+'file.cpp: read, write', IO+'data_output_stream.ipp: operator<<', IO+'data_input_stream.ipp: operator>>'])
p("Floating-point numbers saved in a text file can be loaded",
  "Floating-point numbers written to a file through a text output stream, one on each line, are readable decimal numbers, and a text input stream on the file reads the same numbers back.",
  "every sequence of values of every floating-point type, every encoding and byte order, all buffer capacities, both platforms",
  "All values; a rounding error of one unit in the last place shows for few of them.",
  [IO+'text_output_stream.ipp: operator<<', IO+'text_input_stream.ipp: operator>>', U+'formatters.ipp: format_floating_point', U+'parsers.ipp: parse_floating_point'])
p("Decimal numbers in a text file are loaded as what they say",
  "Words of a text file that are decimal numbers, with any white space around them, are read by operator >> as the values of the type asked for that are closest to the numbers the words denote.",
  "every text, number of digits, floating-point type, encoding, byte order, buffer capacity, both platforms",
  "All digit sequences; the error depends on the number of digits.",
  [IO+'text_input_stream.ipp: operator>>', U+'parsers.ipp: parse_floating_point'])
p("Dummies report their lives to their test module",
  "Every construction, copy, move and destruction of a dummy puts its message at the end of the queue of the module the dummy was made for, or that of the dummy it was copied or moved from; values follow, and a moved-from dummy has the default value. As long as the messages are left alone, a module has got one message of birth more than of death for each of its dummies that is there.",
  "every program that makes, copies, moves, uses and drops modules and dummies, of any length and in any order, addresses used again included",
  "All histories; a test sees a few of them, and the test module is what tests themselves rely on.",
  [CO+'test_module.ipp: dummy, push_message, pop_message, clear_message_queue, get_message_count'])
p("A moved test module keeps its dummies",
  "When a test module is copied or moved, the messages that wait in it go along, and after a move its dummies report to the new module.",
  "every history before, every number of messages, every state left in the moved-from queue",
  "All histories; the state of the moved-from queue depends on the library.",
  ['api/include/cmp/core/test_module.hpp: test_module, dummy', CO+'test_module.ipp: dummy'])
p("A test program succeeds exactly if all tests do",
  "A program whose main returns the result of run_tests has exit status zero exactly if every test function returned true; if one throws, the program ends abnormally.",
  "every sequence of test functions, Unix-like systems and Windows",
  "All numbers of tests and failures; systems keep different parts of the value main returns.",
  [CO+'test_module.ipp: run_tests', 'tests/automated/core/test_core_general.cpp: main'])
p("The report of a run can be read back",
  "What a run prints is, character by character, the announcement of each test and stage, the verdicts, the totals and the failures; programs that print the same have run tests of the same names, with the same stages and verdicts, in the same order.",
  "every sequence of test functions (whose names are one line each), every interleaving of starts, stages and messages",
  "Unambiguity is about all pairs of programs.",
  [CO+'test_module.ipp: start_test, end_stage, end_test, run_tests, report_failed_test, zero_pad'])
p("Update functions are told the time in seconds",
  "The delta and the total an update function is told are finite, not negative and right to within one part in 2^51; the delta is never greater than the total, and totals never go down. Adding up the deltas gives the total.",
  "every history of windows and updates, every time below 2^63 nanoseconds",
  "All times: conversion and division round, so each claim is about all 63-bit counts and all sequences of them.",
  [G+'impl/common/common_window.cpp: update_window'])
p("The whole seconds of the total are those that have passed",
  "Rounding the total an update function is told down gives the number of whole seconds since the window was opened.",
  "every time below 2^63 nanoseconds",
  "All times; the first wrong one comes after 104 days.",
  [G+'impl/common/common_window.cpp: update_window', 'examples/desktop_gui_example/src/main.cpp: update'])
p("The counter of the example program",
  "While its counter is on, the title of the demo window after an update is the number of whole seconds since it was opened, with thousands separators, followed by s; while it is off it is the name of the program.",
  "every sequence of updates and keys, every time",
  "All histories of keys and updates.",
  ['examples/desktop_gui_example/src/main.cpp: demo_window', U+'formatters.ipp: format_integer', G+'impl/common/common_window.cpp: update_window'])
p("A failing write loses nothing accepted before",
  "If the device behind an output resource takes all of a write or throws and takes nothing, then after any writes and flushes, some of which threw, the device and the buffer together hold exactly the bytes of the writes that returned; the next flush that returns has brought all of them to the device.",
  "every sequence of writes and flushes, capacity and pattern of failures; among the devices: containers that run out of memory",
  "All interleavings of failures with the states of the buffer.",
  [IO+'output_resource.cpp: write, flush, write_buffered', IO+'io_buffer.cpp: write', IO+'impl/ctr_essence.ipp: write_raw'])
p("A failing read loses nothing",
  "If the device behind an input resource throws without having lost anything, a program that catches the exception and reads on gets all the bytes of the device, in order.",
  "every content, sequence of reads, capacity and pattern of failures",
  "All interleavings of failures with the states of the buffer.",
  [IO+'input_resource.cpp: read, fill, read_buffered', IO+'io_buffer.cpp: read'])
p("Destroying a stream and setting a position do not end the program",
  "The destructor of an output stream and set_position, which must not throw, bring what is buffered to the device or leave it; they never end the program.",
  "every history of writes and flushes, capacity and pattern of failures",
  "All points at which a device may fail.",
  [IO+'output_stream.ipp: ~output_stream', IO+'seekable_output_resource.ipp: set_position', IO+'impl/ctr_essence.ipp: write_raw'])
p("Running out of memory while a code point is added leaves the string as it was",
  "If insert_code_point, append_code_point or prepend_code_point throw std::bad_alloc, the string is unchanged.",
  "every string, kind, code point, index, capacity and sequence of answers of the allocator",
  "All points at which memory may run out.",
  [U+'algorithms.ipp: insert_code_point, append_code_point, prepend_code_point'])
p("Converting a string asks for memory only once",
  "convert_string reserves room for the result before it converts; once it has that room it cannot run out of memory.",
  "every text, pair of kinds and sequence of answers of the allocator",
  "All points at which memory may run out.",
  [U+'algorithms.ipp: convert_string'])
p("The owner of a container may change it while it is read",
  "An input resource on a container refers to the caller's object. If the caller changes the container between calls, every read returns bytes that are in the container at that time, from the current position on, and touches nothing outside of it.",
  "every content, element size and capacity, every sequence of reads, seeks and changes",
  "All interleavings of changes by the owner with the states of the buffer.",
  [IO+'transparent_container_input_resource.ipp', IO+'impl/ctr_essence.ipp: read_raw, set_position_raw', IO+'seekable_input_resource.ipp: set_position', IO+'input_resource.cpp: read, fill, read_buffered'])
p("A writer and a reader of one container are a pipe",
  "An output resource that appends to a container and an input resource on the same container: every read gives the next bytes of those delivered so far, at least everything written before the last flush; nothing is lost, repeated or out of order. With the writer tied to the reader, everything written is delivered at every read.",
  "every interleaving of writes, flushes and reads, every initial content, element size and pair of capacities",
  "All interleavings, with the states of two buffers.",
  [IO+'transparent_container_input_resource.ipp', IO+'transparent_container_output_resource.ipp', IO+'impl/ctr_essence.ipp: read_raw, write_raw, is_at_end', IO+'input_resource.cpp: read, tie', IO+'output_resource.cpp: write, flush'])
p("A container used for output can be emptied by its owner",
  "The owner of a container that an output resource writes to may take its content and leave it empty after a flush; the next content is what is written next.",
  "every sequence of rounds of writes, element size and capacity",
  "All numbers and sizes of rounds and states of the buffer.",
  [IO+'transparent_container_output_resource.ipp: grab_content', IO+'impl/ctr_essence.ipp: write_raw', IO+'seekable_output_resource.ipp: set_position'])
p("After a wrong answer a program can ask again",
  "A program asks for integers and truth values with uin >> x and catches the exception for a wrong answer. Every question uses up exactly the next word that was typed; it gives the number or truth value the word denotes, or it is reported as wrong and the next question gets the next word. A loop that asks until the answer is right ends with the first right answer.",
  "every typed text and division into pieces, sequence of questions and prompts, integer type, platform and set of buffer capacities",
  "All texts a user may type, right and wrong answers in any order.",
  [IO+'text_input_stream.ipp: operator >> (bool&), operator >> (T&)', U+'parsers.ipp: parse_integer, parse_bool', IO+'impl/unix_like/unix_like_uin.cpp', IO+'impl/windows/windows_uin.cpp'])
p("Normal and error output appear on a terminal in the order they were written",
  "When the standard output and the standard error go to the same terminal, the texts a program writes to uout and uerr appear there in the order in which they were written.",
  "every program of writes, flushes and questions, every typed input, platform and set of buffer capacities",
  "All interleavings of two buffered channels.",
  [IO+'uio.cpp: uout, uerr', IO+'impl/unix_like/unix_like_uout.cpp', IO+'impl/windows/windows_uout.cpp', IO+'output_resource.cpp: write, flush', IO+'input_resource.cpp: read'])
p("Programs can react to what the user answers",
  "A program that decides after each answer what to say and to ask next takes exactly the turns that go with the answers typed: it never waits for input before everything it said to the standard output has appeared, and at its end each channel has shown exactly what the program said on it in view of these answers.",
  "every program (a tree that branches on answers), every typed text that holds the answers, however it arrives, every platform, byte order and set of buffer capacities; a system that takes all output",
  "All programs, all answers and all ways in which they may arrive.",
  [IO+'uio.cpp', IO+'impl/unix_like/unix_like_uin.cpp', IO+'impl/windows/windows_uin.cpp', IO+'text_input_stream.ipp', IO+'text_output_stream.ipp', IO+'input_resource.cpp: read'])
p("The Unicode example repeats what the user says",
  "The example program shows its introduction and its question, waits for a word, and then shows \"You said: \", the word as typed, and \"Cool.\", in this order, whatever the word.",
  "every word and whatever follows it, however it arrives, both platforms, both ways to build the library, terminals as well as files and pipes",
  "All words in Unicode.",
  ['examples/unicode_stdio_example/src/main.cpp: main', IO+'uio.cpp', IO+'text_input_stream.ipp', IO+'text_output_stream.ipp'])
p("Resource objects can be copied, moved and tied",
  "A program may copy and move input resources and move output resources about: reads go on where they were, and every read of an input tied to an output delivers everything written to that output so far.",
  "every sequence of making, copying, moving, assigning, destroying, tying, writing, flushing and reading, on any number of resources and containers, all buffer capacities; compilers that assign a shared base once or twice",
  "All histories of objects, and all compilers.",
  [IO+'input_resource.cpp: read, tie', 'api/include/cmp/io/input_resource.hpp: m_tied_resource', 'api/include/cmp/io/transfer_resource.hpp', 'api/include/cmp/io/output_resource.hpp', 'api/include/cmp/io/io_buffer.hpp', 'api/include/cmp/io/seekable_output_resource.hpp', 'api/include/cmp/io/transparent_container_output_resource.hpp', 'api/include/cmp/io/transparent_container_input_resource.hpp'])
p("Type traits describe text",
  "The type traits tell for every type, however qualified, whether it is text (string, view, pointer to or array of code units), whether the text can be changed through it, whether it is a view and whether it owns the text; no type is text in two kinds of units.",
  "every C++ type and every choice of sizes by the compiler, all twenty traits",
  "There are infinitely many types; the tests try a list of them.",
  ['api/include/cmp/unicode/type_traits.hpp', 'api/include/cmp/core/type_traits.hpp: constant_max_v', 'api/include/cmp/unicode/concepts.hpp'])
p("Values are shown according to their type",
  "stream << x shows characters as characters, text as text, bool and numbers as such, flushes for cmp::flush, and does not compile for anything else.",
  "every C++ type of x (classes without conversions)",
  "The compiler chooses among sixteen functions for infinitely many types.",
  ['api/include/cmp/io/text_output_stream.hpp: operator <<', IO+'text_output_stream.ipp'])
p("Values are read in the way they are shown",
  "If a variable can be shown with << and read with >>, it is read in the way in which it is shown.",
  "every C++ type that has a size",
  "The compiler chooses among functions for infinitely many types.",
  ['api/include/cmp/io/text_output_stream.hpp: operator <<', 'api/include/cmp/io/text_input_stream.hpp: operator >>'])
p("Functions on text take every kind of text",
  "Functions that take text (conversion, comparison, parsing, validation) take every type that the concept text_object describes, and treat it as text in its own kind of code units.",
  "every type that is text, however qualified, every size of wchar_t",
  "All types and array bounds.",
  ['api/include/cmp/unicode/algorithms.hpp: string_size, convert_string, starts_with, ends_with, validate_string', 'api/include/cmp/unicode/by_code_point.hpp: deduction guides', 'api/include/cmp/unicode/parsers.hpp', 'api/include/cmp/core/type_traits.hpp: value_type_t'])
p("Chains of stream operators",
  "A chain of << and >> on a stream does what its parts do one by one, in this order; it compiles if each of them compiles alone.",
  "all six kinds of streams, chains of every length, parts of every C++ type",
  "Chains of all lengths and parts of all types.",
  ['api/include/cmp/io/text_output_stream.hpp: operator <<', 'api/include/cmp/io/text_input_stream.hpp: operator >>', 'api/include/cmp/io/data_output_stream.hpp: operator <<', 'api/include/cmp/io/data_input_stream.hpp: operator >>', 'api/include/cmp/io/output_stream.hpp: operator <<', 'api/include/cmp/io/text_io_stream.hpp', 'api/include/cmp/io/data_io_stream.hpp'])
p("What data streams take",
  "Data streams write and read objects of every fundamental type, and of no other; what can be read can also be written.",
  "every C++ type, variables and temporaries",
  "There are infinitely many types.",
  ['api/include/cmp/io/data_output_stream.hpp: operator <<', 'api/include/cmp/io/data_input_stream.hpp: operator >>', IO+'data_output_stream.ipp', IO+'data_input_stream.ipp'])
p("Threads with different objects",
  "Threads that use different resource objects do not disturb one another: under every schedule each of them sees what it would see alone.",
  "any number of threads, programs of every length over outputs, inputs and containers, every schedule",
  "Schedules cannot be enumerated by tests.",
  [IO+'input_resource.cpp: read, tie', IO+'output_resource.cpp: write, flush', 'api/include/cmp/io/input_resource.hpp: m_tied_resource', IO+'uio.cpp'])
p("Files of a killed process",
  "When a process is killed at any moment, a file it was using (as C64 allows, on a system that does what it is asked to) is as after an initial part of the calls: no call followed by a completed flush or seek is lost, at most as many bytes of completed writes as the buffer holds are missing, and unless the kill falls inside a system call no write is there in part. No other file has changed.",
  "every history of calls, every moment of the kill (between any two system calls, or within one), every buffer size, both platforms",
  "Tests cannot stop a process at every system call of every history.",
  [IO+'file.cpp: write', IO+'output_resource.cpp: write, flush, write_buffered', IO+'impl/unix_like/unix_like_file.cpp: write_raw, close', IO+'impl/windows/windows_file.cpp: write_raw, close', IO+'seekable_io_resource.ipp: set_position'])
p("Characters in a text file of a killed process",
  "When a process that writes a text through a stream to a file is killed at any moment, the file holds an initial part of the text, in whole characters; everything before a completed flush is there, and at most as many bytes as the buffer holds are missing.",
  "every text and mix of writing calls, encoding form, byte order, string kind, buffer size, platform, and every moment of the kill",
  "Tests cannot stop a process at every system call of every text.",
  [IO+'text_output_stream.ipp: write_code_point_in_utf16, operator <<', IO+'output_stream.ipp: write, reverse_write', IO+'output_resource.cpp: write, flush', IO+'impl/unix_like/unix_like_file.cpp: write_raw', IO+'impl/windows/windows_file.cpp: write_raw'])
p("Values in a data file of a killed process",
  "When a process that writes values through a data stream to a file is killed at any moment, the file holds an initial part of the bytes of these values, and a number of the first values, each whole, if no system call was cut short; everything before a completed flush is there, and at most as many bytes as the buffer holds are missing. A later process reads the whole values as they were.",
  "every list of values of any sizes, byte order, buffer size, platform, and every moment of the kill",
  "Tests cannot stop a process at every system call of every list of values.",
  [IO+'data_output_stream.ipp: write, operator <<', IO+'output_stream.ipp: write, reverse_write', IO+'output_resource.cpp: write, flush', IO+'data_input_stream.ipp: operator >>'])
p("The project's own tests on every machine",
  "Every automated test of the project succeeds, and every test program ends with exit status 0, on every machine and configuration it can be built for.",
  "every signedness of char, size of wchar_t, byte order, operating system, sizes of other types, and configured default buffer capacity; the test suite itself is finite",
  "A test run shows one machine and one configuration: that of the run.",
  ['tests/automated/core/test_core_general.cpp', 'tests/automated/unicode/test_examiners.cpp', 'tests/automated/unicode/test_algorithms.cpp', 'tests/automated/unicode/test_by_code_point.cpp', 'tests/automated/unicode/test_formatters.cpp', 'tests/automated/unicode/test_parsers.cpp', 'tests/automated/unicode/test_type_traits.cpp', 'tests/automated/io/test_io_general.cpp', 'tests/automated/io/test_container_transfer_resources.cpp: read_u16string, read_u32string, read_wstring', 'tests/automated/io/test_file.cpp', 'tests/automated/io/test_data_input_stream.cpp', 'tests/automated/io/test_data_output_stream.cpp', 'tests/automated/io/test_data_io_stream.cpp', 'tests/automated/io/test_text_input_stream.cpp', 'tests/automated/io/test_text_output_stream.cpp', 'tests/automated/io/test_text_io_stream.cpp', 'tests/data', 'api/include/cmp/core/config.hpp: CMP_CONFIG_DEFAULT_BUFFER_CAPACITY'])
p("Characters of a char string",
  "Iterating a string of char visits, for every char in it, the number of this character, and conversions of the string keep these numbers.",
  "every string of char, whether char is signed or not",
  "The signedness of char differs between platforms, and tests use ASCII.",
  [U+'by_code_point.cpp: by_code_point<char>::const_iterator::operator *', U+'algorithms.ipp: convert_string'])
p("Iterator operators on arbitrary text",
  "On any string, valid or not, ++it, it++, it + n, it - n and it -= n move an iterator within the string or throw invalid_unicode_encoding or iterated_past_end; the postfix forms return the iterator as it was, it + n and it - n leave it alone, and iterators compare equal exactly if they are at the same place.",
  "every string of each kind, every position and offset",
  "Malformed and truncated strings are endless; tests use well-formed ones.",
  [U+'by_code_point.cpp: operator ++, operator --, operator +, operator -, operator -=, operator ==, operator !=, advance, finish_sequence'])
p("Files behave the same on Unix-like systems and Windows",
  "The same history of a file object (constructed, opened, read, written, positioned, asked for its position, its end and whether it is open, closed, destroyed, in any order) gives the program the same results and exceptions on a Unix-like system and on Windows, and leaves the same files behind.",
  "every contents of the disk, path, access mode, buffer capacity and history, and every pattern of failing system calls",
  "Each platform's tests run one of the two implementations, on a few histories.",
  [IO+'impl/unix_like/unix_like_file.cpp: open, close, read_raw, write_raw, get_position, set_position_raw', IO+'impl/windows/windows_file.cpp: open, close, read_raw, write_raw, get_position, set_position_raw', IO+'file.cpp: read, write, is_at_end', IO+'input_resource.cpp: read', IO+'output_resource.cpp: write, flush'])
p("What tests log",
  "Informational messages and errors that test functions log have no influence on the results of the tests and on the status of the program. They appear on the terminal in the order and at the places where they were logged, also when a test function then throws and the program ends abnormally. A reader, or a program that filters the standard output, can tell them from the report by the beginnings of their lines, and what remains is the report of the same tests without messages.",
  "every list of test functions, message, order of calls and ending of the messages, on both platforms",
  "The project's tests of the test module log no messages and their output is read by people.",
  [CO+'test_module.ipp: log_info, log_error, run_tests, start_test, end_stage'])
p("What a power failure leaves in files",
  "After a power failure a file is as it was after an initial part of the calls made on it, no write being there in part, and everything is there that was written before the last flush that returned, or before the file was closed. Files that were not written to are as they were.",
  "every contents of the disk, access mode, buffer capacity, history of calls and moment of the power failure, both platforms",
  "A power failure, and all that an operating system may have kept in memory then, cannot be arranged in a test.",
  [IO+'output_resource.cpp: flush', IO+'impl/unix_like/unix_like_file.cpp: open, close, write_raw', IO+'impl/windows/windows_file.cpp: open, close, write_raw'])
p("What the manual test of the consoles reports",
  "The program that tests the consoles with the help of a person shows everything it is supposed to, in order, each question before it waits for the answer. It reports the answers that are wrong, and no others, by name and by what it took them for, and its exit status is the number of tests that failed.",
  "every entered text, in pieces of any size, both platforms, byte orders, all buffer capacities and kinds of char",
  "The test is itself run by hand, with few answers, and nothing tests that its verdict follows from what was typed.",
  ['tests/manual/test_uio.cpp: test_output, test_input, test_parsing_and_formatting, main'])
p("Windows behave alike with every toolkit",
  "A program with windows, whose user does the same, has the same handlers of the same window objects called with the same arguments, in the same order, on Windows, with GTK and on macOS.",
  "every sequence of actions of a program and its user, handlers that act included, every passage of time, every pair of toolkits",
  "Tests run on one platform at a time, and compare no two of them.",
  [G+'impl/windows/windows_window.cpp', G+'impl/gtk/gtk_window.cpp', G+'impl/macos/macos_window.mm'])
p("The floating-point parser takes numerals only",
  "parse_floating_point accepts a text exactly when it is an optional sign allowed by the format, digits of the radix with their separators and, if there is a radix character, one or more digits behind it. Every other well-formed text is refused with parse_failed, of the type that tells what is wrong.",
  "every well-formed text in every string type, every floating-point type and valid format",
  "The sets of accepted and of refused texts are infinite.",
  [U+'parsers.ipp: number_parser::parse_floating_point, parse_integer', U+'parsers.cpp: digit_character_to_integer, check_for_sign'])
p("Numbers are the same in every type of string",
  "Formatting a truth value, an integer or a floating-point number gives the same characters whichever string type is asked for, and parsing gives the same value or the same error for the same characters, however the string type stores them, and whether or not char is signed.",
  "every two string types, every number, every format, every text",
  "A test compares a few values in one or two of the types.",
  [U+'formatters.ipp: number_formatter::format_integer, format_floating_point', U+'parsers.ipp: number_parser::parse_integer, parse_floating_point, parse_bool'])
p("A place limit rounds the number",
  "With a limit of n places the text format_floating_point gives denotes the number with at most n places that is closest to the value; a value with at most n places is shown exactly.",
  "every finite value of every floating-point type whose integral part fits, every radix, every limit and number of places",
  "Rounding goes wrong for particular values and numbers of places only.",
  [U+'formatters.ipp: number_formatter::format_floating_point', 'api/include/cmp/unicode/formats.hpp: floating_point_format'])
p("Reading on after malformed text",
  "When a text input stream refuses malformed input, the program can catch the exception and read on: every well-formed character that follows is still read, in order, and the end of the stream is reached.",
  "every text with any number of damaged places of any kind, in every encoding form and byte order, every size of buffer, every kind of target string",
  "Where the stream stands after an exception depends on the kind of damage and on what follows it; tests look at the first exception only.",
  [IO+'text_input_stream.ipp: read_utf8_code_point, read_utf16_code_point, finish_utf8_sequence, finish_utf16_sequence, append_all', IO+'input_stream.ipp: is_at_end'])
p("The same bytes are the same text everywhere",
  "What a text input stream reads depends on the bytes only: the same requests to the same bytes give the same answers and the same exceptions, whether the bytes are in a container or in a file, with whatever buffer, on whatever platform and machine.",
  "every sequence of bytes, well-formed or not, every sequence of requests, every encoding form and byte order, every buffer size, both platforms, both byte orders of the machine",
  "Tests read well-formed samples on the machine they run on, with one size of buffer.",
  [IO+'text_input_stream.ipp', IO+'input_stream.ipp: read', IO+'input_resource.cpp: read', IO+'impl/unix_like/unix_like_file.cpp: read', IO+'impl/windows/windows_file.cpp: read'])
p("A place noted in a text can be returned to",
  "A program that reads text may note get_position() of the resource between two characters and give it to set_position() later: it then reads the same characters, and gets the same exceptions, as after noting it. The position is the number of bytes read so far, and what is found there does not depend on how the program got there.",
  "every sequence of bytes, well-formed or not, every sequence of reads, notes and returns, every encoding form and byte order, every buffer size, containers and files",
  "The buffer may be anywhere relative to the place noted and the place returned from; tests return to the beginning only.",
  [IO+'text_input_stream.ipp', IO+'input_resource.cpp: read', IO+'impl/ctr_essence.ipp: get_position, set_position_raw', IO+'seekable_input_resource.ipp: set_position', IO+'seekable_io_resource.ipp: set_position', IO+'impl/unix_like/unix_like_file.cpp: get_position, set_position_raw', IO+'impl/windows/windows_file.cpp: get_position, set_position_raw'])
p("Values and lines of text can share a file",
  "A program may write values through a data stream and lines of text through a text stream to the same resource, in any order, and reads them back the same way: each value and each line arrives unchanged, and neither stream takes bytes that belong to the other.",
  "every sequence of values and lines, every width, every encoding form and byte order, every string type, every buffer size for writing and for reading, containers and files, both platforms",
  "A stream that read ahead would be noticed only with the right mixture of items and the right size of buffer.",
  [IO+'data_input_stream.ipp', IO+'data_output_stream.ipp', IO+'text_input_stream.ipp: read_line', IO+'text_output_stream.ipp', IO+'input_resource.cpp: read', IO+'output_resource.cpp: write'])
p("A program at the console does the same on every machine",
  "A program that talks to its user through uin, uout and uerr, whatever it asks and says and however that depends on the answers, shows the same on the standard output and on the standard error, or ends with the same exception, on every platform and machine if the same text is typed: whatever the byte order, the sizes of the buffers, the way lines end when they are typed, and the pieces in which the input arrives.",
  "every program made of statements that write, flush, read a line, read a word or read a code point, every typed text, every pair of machines with their buffers, line ends and arrivals",
  "Tests run on the machine at hand, with its buffers and one way of feeding the input.",
  [IO+'uio.cpp', IO+'impl/unix_like/unix_like_uin.cpp', IO+'impl/windows/windows_uin.cpp', IO+'impl/unix_like/unix_like_uout.cpp', IO+'impl/windows/windows_uout.cpp', IO+'text_input_stream.ipp: read_line, operator >>', IO+'text_output_stream.ipp: operator <<'])
p("A file can be followed while it is written",
  "While one file object appends to a file, another file object on the same file gets, however the writes, flushes and reads are interleaved, the next bytes of those delivered so far, at least all written before the last flush: none lost, none twice, none out of order; it can tell when it has read all that is there, and goes on when more is written; once the writer is closed the file has everything written.",
  "every content of the file, every interleaving of writes, flushes and reads, every pair of buffer capacities and access modes, both platforms",
  "What the reader's buffer holds when the file grows depends on the interleaving; tests try a few.",
  [IO+'impl/unix_like/unix_like_file.cpp', IO+'impl/windows/windows_file.cpp', IO+'input_resource.cpp', IO+'output_resource.cpp', IO+'io_buffer.cpp'])
p("Two users of a file can take turns",
  "Two file objects on one file that take turns, each turn beginning with set_position and ending with flush, do together what one object does that makes all calls in that order; in particular what they append is all in the file, in that order.",
  "every content of the file, every sequence of turns with every sequence of reads, writes and seeks in each, every pair of buffer capacities and access modes, both platforms",
  "Stale buffers and positions depend on what the other object did in between; tests try a few histories.",
  [IO+'impl/unix_like/unix_like_file.cpp', IO+'impl/windows/windows_file.cpp', IO+'seekable_io_resource.ipp', IO+'io_buffer.cpp'])
p("A buffer saves calls of the operating system",
  "With a buffer there are never more calls of the operating system to transfer bytes than without one. For output, whatever the system does, there are at most as many as there were non-empty writes, and at most two per capacity's worth of bytes plus one per flush and one for closing. For input there is at most one per capacity's worth of bytes read plus one per read that wanted more than there was, and two more.",
  "every content of the file, every history of writes and flushes or of reads, every buffer capacity and access mode, every behaviour of the system (for output), both platforms",
  "The number of system calls is not visible to unit tests, and depends on how the sizes of the requests and the capacity fit together.",
  [IO+'input_resource.cpp', IO+'output_resource.cpp', IO+'io_buffer.cpp', IO+'impl/unix_like/unix_like_file.cpp', IO+'impl/windows/windows_file.cpp'])
p("A file can be copied in blocks",
  "A program that opens a file to read and another one to write, reads blocks and writes what it got until nothing more comes, and closes both, ends with a copy: the second file has the bytes of the first, and no other file has changed.",
  "every content of both files, every size of the blocks, every pair of buffer capacities, both platforms",
  "Tests copy a few small files with one block size; how blocks, two buffers and the end of the file fit together is different for every combination of sizes.",
  [IO+'file.cpp', IO+'input_resource.cpp', IO+'output_resource.cpp', IO+'impl/unix_like/unix_like_file.cpp', IO+'impl/windows/windows_file.cpp'])
p("A program that checks its calls knows whether its copy is complete",
  "A program that copies a file in blocks, that looks at the result of every write, and that asks for the end of the file when nothing more comes, knows whether the copy is complete, whatever call the operating system refuses: it ends, and if it says that everything was copied then it was. Otherwise the copy has the first bytes of the file.",
  "every content of both files, every size of the blocks, every script of refused and short transfers, both platforms",
  "A failure can happen at any one of the calls of the system, and unit tests cannot make a disk fail at each of them.",
  [IO+'file.cpp', IO+'input_resource.cpp', IO+'output_resource.cpp', IO+'impl/unix_like/unix_like_file.cpp', IO+'impl/windows/windows_file.cpp'])
p("Passing failures can be waited out",
  "A program that copies a file in blocks and tries again whatever call failed (makes a new object if the file is not open, writes again what a write did not take, reads again if nothing came and the end was not reached) comes to an end as soon as the failures of the operating system do, and then the copy is complete: no failure leaves an object in a state in which trying again gives wrong bytes.",
  "every content of both files, every size of the blocks, every finite script of refused and short transfers, both platforms",
  "The failures may come at any calls, one after another, and in any number; unit tests cannot make a disk fail and recover in every such way.",
  [IO+'file.cpp', IO+'input_resource.cpp', IO+'output_resource.cpp', IO+'impl/unix_like/unix_like_file.cpp', IO+'impl/windows/windows_file.cpp'])
p("Numbers are shown as they were typed",
  "A program that reads a number from a text and shows it again in the same format shows what was typed: the same text if it was written as the library writes numbers, and otherwise (leading zeros, small letters) the same number as the library writes it.",
  "every text, every radix, format, type of number and string kind",
  "There are too many texts and formats to try, and rounding decides case by case which fractions come back.",
  [U+'formatters.ipp: number_formatter', U+'parsers.ipp: number_parser'])
p("Numbers and their texts are in the same order",
  "A smaller number is not shown as a larger one, and a smaller number in a text is not read as a larger one: a program may compare prices or measurements before or after converting them.",
  "every pair of values and of texts, every radix, format and type",
  "It is a statement about pairs of values; rounding errors that turn two neighbours round show for few pairs only.",
  [U+'formatters.ipp: number_formatter::format_floating_point', U+'parsers.ipp: number_parser::parse_floating_point'])
p("Different numbers are shown differently",
  "Two different values of a type are shown as different texts in the same format without a limit of places, so that a text can stand for a value, as a key or in a comparison of results.",
  "every pair of values, every radix, format and type",
  "It is a statement about pairs of values, and the few pairs that share a text are neighbours that a test hardly tries.",
  [U+'formatters.ipp: number_formatter::format_floating_point, format_integer'])
p("A log survives the programs that write it",
  "Programs that append to a log (they open it, set the position to its end, write and flush) do not damage it, however often they are killed: what one run left is left by all later ones, what a run had flushed is in the log for good, a run that came to its end is in the log completely, and of a killed one there is an initial part of what it wrote.",
  "every number of runs, every sequence of writes and flushes of each, every moment at which a run is killed (within a system call, too), every buffer capacity, both platforms",
  "A test cannot kill a process at every instruction, let alone several processes one after the other.",
  [IO+'file.cpp', IO+'output_resource.cpp', IO+'seekable_io_resource.ipp: set_position', IO+'impl/unix_like/unix_like_file.cpp', IO+'impl/windows/windows_file.cpp'])
p("An interrupted copy can be resumed",
  "A program that copies a file in blocks and starts by setting the position of the target to its end, and that of the source to the same place, can be killed at any time and started again: the target always has an initial part of the source's bytes, never fewer than before, the source and all other files stay as they are, and when the program comes to its end at last the target is a complete copy.",
  "every content of the source, every block size not larger than the buffer, all buffer capacities, any number of starts, every moment at which the process is killed (within a system call, too), both platforms",
  "A test cannot kill the process at every instruction of every start, for all contents and block sizes.",
  [IO+'file.cpp', IO+'output_resource.cpp', IO+'input_resource.cpp', IO+'seekable_io_resource.ipp: set_position', IO+'impl/unix_like/unix_like_file.cpp: position', IO+'impl/windows/windows_file.cpp: position'])
p("Texts can be converted in pieces and with a way around",
  "What has been converted from one type of string to another stays as it is whatever follows: converting two strings and joining the results gives the same as joining the strings and converting them, and a failure in the second piece is the same failure. Converting to UTF-32 first and from there to the wanted type succeeds exactly when the direct conversion does, with the same result.",
  "all pairs of source and target types, all strings, well-formed or not, all places of the cut at which the first piece can be converted",
  "Tests convert some texts; the claim is about every sequence of code units, malformed ones included, and every cut.",
  [U+'algorithms.ipp: convert_string, append_code_point', U+'by_code_point.cpp'])
p("Numbers are read the same in every locale",
  "What a text is read as when it is parsed as an integer or a floating-point number does not depend on the locale a program has chosen with std::setlocale: the formats alone say what the text must look like.",
  "all locales (any mapping of the characters 0 to 255 by std::tolower), all texts, string types, number types and formats",
  "Tests run in one locale; the claim is about all mappings of characters that locales may have, and all radixes.",
  [U+'examiners.ipp: is_radix_digit', U+'parsers.cpp: digit_character_to_integer', U+'parsers.ipp: parse_integer, parse_floating_point'])
p("Sorted texts stay sorted in every type of string",
  "Strings compare by their code units. Converting two strings to another type does not change which of them comes first, so a sorted list of strings is still sorted after all of them have been converted, and sorting is by code points.",
  "all pairs of source and target types, all pairs and lists of texts that can be converted",
  "Tests compare a few strings; the claim is about all pairs of texts, and the encodings have boundaries of length that need not respect the order.",
  [U+'algorithms.ipp: convert_string, append_code_point', U+'by_code_point.cpp'])
p("Texts can be searched and cut in every type of string",
  "A text that is not empty is found in a converted string (with std::basic_string::find, that is by code units) exactly where it stands in the text, never in the middle of a character; what is in front of it and behind it is the conversion of what was in front of it and behind it. A string cut at each occurrence of a separator of one code unit falls into the conversions of the pieces of the text.",
  "all pairs of source and target types, all texts that can be converted, all parts and separators, all places",
  "Tests search for some words; the claim is that no combination of neighbouring characters contains the units of another one by accident.",
  [U+'algorithms.ipp: convert_string, append_code_point', U+'by_code_point.cpp'])
p('Several writers can append to one container',
  'Several output resources on one container that take turns, each turn going to the end of the container with set_position, writing and flushing, lose nothing: everything they wrote is in the container behind what was there, in the order of the turns.',
  'every content and element size, every number of writers with every capacity of their buffers, every order and size of turns',
  'Every writer has a position and a buffer of its own that go stale when another one writes; tests try a few orders.',
  [IO+'transparent_container_output_resource.ipp', IO+'impl/ctr_essence.ipp: write_raw, set_position_raw', IO+'seekable_output_resource.ipp: set_position', IO+'output_resource.cpp: write, flush'])
p('Text can be passed on through a container',
  'When a text output stream and a text input stream use one container in turn, and the output stream is flushed before the input stream is used, the characters, lines, words, numbers and truth values that are read are, one after the other, the pieces of what has been written and not been read, across all turns: nothing is lost, repeated or mixed up, and in the end the container holds everything that was written.',
  'every encoding and byte order, every capacity of the two buffers (the reading one holding a code unit), every number of turns and every sequence of entries and requests in them, every text that was there before',
  'The two streams have positions and buffers of their own, and a turn may end inside a line, a word or the bytes that are buffered; tests try a few turns.',
  [IO+'text_input_stream.ipp: read_line, operator >>', IO+'text_output_stream.ipp', IO+'transparent_container_input_resource.ipp', IO+'transparent_container_output_resource.ipp', IO+'impl/ctr_essence.ipp: read_raw, write_raw, is_at_end'])
p('A tied output is flushed before the input is used',
  'When the output resource is tied to the input resource, everything that has been written through the output stream is found by the input stream, without a flush.',
  'every encoding, byte order, capacity of the buffers, every sequence of turns, entries and requests',
  'Whether written text is found depends on how much of it still is in a buffer when the input stream looks for the end; tests with text longer than the buffer do not notice.',
  [IO+'input_resource.cpp: read, tie', IO+'text_input_stream.ipp: read_line, read_all, operator >>', IO+'input_stream.ipp: is_at_end'])
p('A text file can be read while it is written',
  'While a text output stream on one file object appends to a file, a text input stream on another object reads it: after each flush the reader gets the next characters, lines, words, numbers and truth values of the file, in order, and the lines it gets are the lines of the file.',
  'every encoding and byte order, every capacity of the buffers, both platforms, every number of turns and every sequence of entries and requests in them',
  'The two objects have positions and buffers of their own, and a turn may end inside a line; tests try a few turns.',
  [IO+'text_input_stream.ipp: read_line, operator >>', IO+'text_output_stream.ipp', IO+'file.cpp: read, write', IO+'impl/unix_like/unix_like_file.cpp', IO+'impl/windows/windows_file.cpp'])
p('A reader that comes too early can try again',
  'One stream writes text to a container while another one tries to read it character by character, at any time and without waiting for a flush: a try that comes too early fails with an exception, nothing is lost by it, whatever is read is the next character that was written, and a try does not fail if the next character was flushed.',
  'every encoding and byte order, every capacity of the buffers, every text and every order of writing, flushing and trying',
  'Whether a try finds a part of a character depends on where the buffer happens to be emptied; tests try a few texts that fit the buffer.',
  [IO+'text_input_stream.ipp: read_code_point, operator >>', IO+'text_output_stream.ipp: write_code_point_in_utf16', IO+'output_resource.cpp: write, flush', IO+'input_resource.cpp: read'])
p('Values are passed on whole to a reader that does not wait',
  'One data stream writes values to a container while another one tries to read values of the same types, at any time: a try that comes too early throws the exception for reading past the end, nothing is lost by it, whatever is read is the next value that was written, never a part of it, a try does not fail if the next value was flushed, and at any time whole values are in the container. Both streams have the byte order of the machine.',
  'every sequence of types, every capacity of the buffers (that of the input holding the largest value), all values and every order of writing, flushing and trying',
  'Whether a try finds a part of a value depends on where the buffer happens to be emptied; tests write a few values and read them afterwards.',
  [IO+'data_input_stream.ipp: operator >>', IO+'data_output_stream.ipp: operator <<', IO+'output_resource.cpp: write, flush', IO+'input_resource.cpp: read'])
p('Values are passed on whole through a file',
  'One file object is used by a data stream that appends values to a file, while a data stream on another file object tries to read values of the same types from its beginning, at any time: a try that comes too early throws the exception for reading past the end, nothing is lost by it, whatever is read is the next value of the file, never a part of it, a try does not fail if the next value was there at first or was flushed, and at any time whole values are in the file. Both streams have the byte order of the machine, the operating system does all it is asked to do, and no buffer is larger than one transfer.',
  'both platforms, every file with or without values in it, every sequence of types, every capacity of the buffers (that of the reader holding the largest value), all values and every order of writing, flushing and trying',
  'Whether a try or another program finds a part of a value depends on where the buffer happens to be emptied; tests write a few values, close the file and read them.',
  [IO+'data_input_stream.ipp: operator >>', IO+'data_output_stream.ipp: operator <<', IO+'file.cpp: read, write', IO+'output_resource.cpp: write, flush', IO+'input_resource.cpp: read'])
p('A reader of a text file that comes too early can try again',
  'One stream appends text to a file while another one, on another file object, tries to read it character by character, at any time: a try that comes too early fails with an exception, nothing is lost by it, whatever is read is the next character of the file, a try does not fail if the next character was there at first or was flushed, and the file always holds whole characters.',
  'both platforms, every encoding and byte order, every capacity of the buffers, every text and every order of writing, flushing and trying',
  'Whether a try or another program finds a part of a character depends on where the buffer happens to be emptied; tests write a file, close it and read it.',
  [IO+'text_input_stream.ipp: read_code_point, operator >>', IO+'text_output_stream.ipp: write_code_point_in_utf16', IO+'file.cpp: read, write', IO+'output_resource.cpp: write, flush'])
p('Values are passed on whole in the byte order that is not that of the machine',
  'What C167 and C168 say about values passed on through a container or a file holds, too, when both data streams are given the byte order that is not that of the machine.',
  'machines of both byte orders, both platforms, containers and files, every capacity of the buffers, every sequence of types and values and every order of writing, flushing and trying',
  'Tests write values and read them back with fresh streams and in one order; all interleavings with both byte orders are out of their reach.',
  [IO+'data_input_stream.ipp: operator >>', IO+'data_output_stream.ipp: operator <<', IO+'input_stream.ipp: read', IO+'output_stream.ipp: reverse_write'])
p("Lines in a log stay lines when programs are killed",
  "When programs that append lines to a log, one after the other, flush after each line, every line whose flush has returned is found as a line of its own in the log, whatever earlier or later programs left there when they were killed.",
  "every number of runs, all lines, every moment at which a run is killed (within a system call, too), every buffer capacity, both platforms, every content the log had before",
  "A test cannot kill several processes one after the other at every instruction.",
  [IO+'file.cpp', IO+'output_resource.cpp', IO+'seekable_io_resource.ipp: set_position', IO+'impl/unix_like/unix_like_file.cpp', IO+'impl/windows/windows_file.cpp'])
p("A file holds what was saved in it last",
  "When a program opens a file, writes something and closes the file, the file holds what was written, whatever it held before and whatever earlier programs that saved something in it left when they were killed.",
  "every content of the file, every number of runs, every sequence of writes and flushes of each, every moment at which a run is killed (within a system call, too), every buffer capacity, both platforms",
  "Tests save in new files or something that is longer than what was there; a test cannot kill several processes one after the other at every instruction.",
  [IO+'file.cpp', 'api/include/cmp/io/file.hpp', IO+'output_resource.cpp', IO+'impl/unix_like/unix_like_file.cpp: open', IO+'impl/windows/windows_file.cpp: open'])
p("Lines of text in a log can be read",
  "Every line of text that a program has logged and flushed is obtained by a program that reads the log line by line with a text input stream, whatever programs that wrote the log left there when they were killed.",
  "every number of runs, all lines, every moment at which a run is killed (within a system call, too), every buffer capacity of writers and readers, both platforms, strings of every type",
  "A test cannot kill several processes one after the other at every instruction, and tests of text files read what was written completely.",
  [IO+'file.cpp', IO+'output_resource.cpp', IO+'text_input_stream.ipp', IO+'impl/unix_like/unix_like_file.cpp', IO+'impl/windows/windows_file.cpp'])
p("Records in a file stay records when programs are killed",
  "When programs add records of one size to a file, one after the other, each record whose flush has returned is found at a multiple of the size, whatever earlier or later programs left there when they were killed.",
  "every size of records, every number of runs, all records, every moment at which a run is killed (within a system call, too), every buffer capacity, both platforms, every content the file had before",
  "A test cannot kill several processes one after the other at every instruction.",
  [IO+'file.cpp', IO+'output_resource.cpp', IO+'seekable_io_resource.ipp: set_position', IO+'impl/unix_like/unix_like_file.cpp', IO+'impl/windows/windows_file.cpp'])
with open('/verif/properties.jsonl','w') as f:
    for x in P: f.write(json.dumps(x)+'\n')
print(len(P))
