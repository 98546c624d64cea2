{
 "claims": [
  {
   "property": "C01",
   "status": "partial",
   "theorems": [
    "C01_utf8_insert_refuted",
    "C01_utf8_insert_partial",
    "C01_utf8_refuses_non_scalars",
    "C01_utf8_accepts_exactly"
   ],
   "note": "REFUTED for scalar values whose low 16 bits lie in D800-DFFF (e.g. U+1D800): they are refused. The exact set of accepted code points is proved, and that accepted ones are written in their UTF-8 form."
  },
  {
   "property": "C02",
   "status": "proved",
   "theorems": [
    "C02_utf16_utf32_insert"
   ],
   "note": "All four UTF-16/UTF-32 string kinds, all scalar values, all positions."
  },
  {
   "property": "C03",
   "status": "proved",
   "theorems": [
    "C03_insert_preserves_text"
   ],
   "note": "All kinds, code points and positions; on an exception the string is unchanged."
  },
  {
   "property": "C04",
   "status": "partial",
   "theorems": [
    "C04_validity_refuted",
    "C04_validity_partial"
   ],
   "note": "REFUTED (U+1D800 is reported invalid); the exact set of accepted code points is proved."
  },
  {
   "property": "C05",
   "status": "proved",
   "theorems": [
    "C05_classification"
   ],
   "note": "Byte classes, surrogate classes and White_Space, as equivalences over all units."
  },
  {
   "property": "C06",
   "status": "proved",
   "theorems": [
    "C06_iterate_utf8",
    "C06_iterate_plain"
   ],
   "note": "All scalar texts in UTF-8, and in the one-unit kinds."
  },
  {
   "property": "C07",
   "status": "partial",
   "theorems": [
    "C07_iterate_utf16_refuted",
    "C07_iterate_utf16_partial"
   ],
   "note": "REFUTED: operator++ moves one unit, so a supplementary code point makes the next dereference throw. Proved: exact behaviour on every well-formed UTF-16 text."
  },
  {
   "property": "C08",
   "status": "proved",
   "theorems": [
    "C08_reverse_iteration"
   ],
   "note": "All kinds."
  },
  {
   "property": "C09",
   "status": "partial",
   "theorems": [
    "C09_arithmetic_utf16_refuted",
    "C09_negative_offset_refuted",
    "C09_arithmetic_partial",
    "C09_utf16_single_steps"
   ],
   "note": "REFUTED for UTF-16 operator-= (moves forward) and negative offsets (no-op). Proved for += on texts without UTF-16 pairs and for -= on all kinds but UTF-16; exact characterisation of UTF-16 single steps."
  },
  {
   "property": "C10",
   "status": "proved",
   "theorems": [
    "C10_iteration_memory_safe",
    "C10_iteration_exact",
    "C10_increment_without_read_refuted"
   ],
   "note": "Range-for loop over every unit sequence of every kind; exact visited prefix for non-UTF-16 kinds. A bare ++ without prior dereference is refuted as an extra result."
  },
  {
   "property": "C11",
   "status": "partial",
   "theorems": [
    "C11_reverse_memory_safe_refuted",
    "C11_reverse_memory_safe_partial",
    "C11_step_back_exact"
   ],
   "note": "REFUTED ([0x80] steps before the beginning). Proved for all strings that do not begin with a continuation unit; exact condition for one UTF-8 step."
  },
  {
   "property": "C12",
   "status": "partial",
   "theorems": [
    "C12_validate_total",
    "C12_validate_refuted",
    "C12_validate_utf16_refuted",
    "C12_validate_partial",
    "C12_validate_utf16_partial"
   ],
   "note": "REFUTED (overlong forms and surrogates accepted in UTF-8; UTF-16 pairs rejected). Proved: totality, exact result for all strings."
  },
  {
   "property": "C13",
   "status": "partial",
   "theorems": [
    "C13_exact",
    "C13_conversion_refuted",
    "C13_conversion_partial",
    "C13_round_trip_partial"
   ],
   "note": "REFUTED for UTF-16 sources with pairs and UTF-8 targets of U+1D800-like code points. Proved for everything else, with round trips. C13_exact says what every conversion of a well-formed text gives, the failing ones included."
  },
  {
   "property": "C14",
   "status": "partial",
   "theorems": [
    "C14_exact",
    "C14_answer_refuted",
    "C14_starts_with_refuted",
    "C14_starts_with_partial"
   ],
   "note": "REFUTED for UTF-16 pairs (std::terminate, C14_starts_with_refuted, or a wrong answer, C14_answer_refuted). Proved for all other texts and kind combinations. C14_exact says what every comparison of well-formed texts gives."
  },
  {
   "property": "C15",
   "status": "proved",
   "theorems": [
    "C15_ends_with"
   ],
   "note": "All kinds and texts."
  },
  {
   "property": "C16",
   "status": "partial",
   "theorems": [
    "C16_starts_exact",
    "C16_ends_exact",
    "C16_order",
    "C16_total_refuted",
    "C16_total_partial"
   ],
   "note": "REFUTED (out-of-bounds read, terminate). Proved for all loosely decodable texts and every string of a plain kind; C16_starts_exact and C16_ends_exact say exactly what happens for every two strings of code units. C16_order: which operand of == is evaluated first, which C++ leaves open, does not matter for calls that return."
  },
  {
   "property": "C17",
   "status": "partial",
   "theorems": [
    "C17_round_trip_refuted",
    "C17_round_trip_partial"
   ],
   "note": "REFUTED at the minimum of a signed type. Proved for every other value of every type, format and string kind."
  },
  {
   "property": "C18",
   "status": "partial",
   "theorems": [
    "C18_canonical_partial",
    "C18_canonical_refuted"
   ],
   "note": "REFUTED (signed char -128 in radix 12 prints -628). Proved, with uniqueness of the text, for every value but the minimum of a signed type."
  },
  {
   "property": "C19",
   "status": "partial",
   "theorems": [
    "C19_every_value_refuted",
    "C19_every_value_partial"
   ],
   "note": "REFUTED: minimum of int/long long is signed overflow in every format; minimum of signed char does not terminate in radix 10. Proved for every other value."
  },
  {
   "property": "C20",
   "status": "partial",
   "theorems": [
    "C20_accepts_refuted",
    "C20_accepts_partial",
    "C20_sound_partial",
    "C20_numerals_partial"
   ],
   "note": "REFUTED (\"1-2\" is read as -12). Proved: exact acceptance for all types without overflow, soundness for every type and separator, acceptance of every proper numeral that fits."
  },
  {
   "property": "C21",
   "status": "partial",
   "theorems": [
    "C21_failures_refuted",
    "C21_nothing_else_partial",
    "C21_empty",
    "C21_last_character_partial",
    "C21_digit_expected_partial",
    "C21_multiple_signs_partial",
    "C21_separator_missing_partial",
    "C21_negative_unsigned"
   ],
   "note": "REFUTED (a character above 255 is undefined behaviour in radix >= 10). Proved: no other exception, and each kind in its situation; undefined behaviours listed exactly."
  },
  {
   "property": "C22",
   "status": "partial",
   "theorems": [
    "C22_no_silent_wrong_value_refuted",
    "C22_fits_partial",
    "C22_long_long_exact",
    "C22_wraps_partial",
    "C22_minimum_refuted"
   ],
   "note": "REFUTED (values wrap; leading zeros in long long and the minimum are undefined). Proved: values that fit, exact outcome for long long, exact wrapped value for unsigned and narrow types."
  },
  {
   "property": "C23",
   "status": "partial",
   "theorems": [
    "C23_radix_refuted",
    "C23_radix_partial"
   ],
   "note": "REFUTED for set_radix (0: division by zero, 1: no termination, for every value). Proved for the constructor and the other setters."
  },
  {
   "property": "C24",
   "status": "partial",
   "theorems": [
    "C24_bool_refuted",
    "C24_bool_partial",
    "C24_nothing_else_partial",
    "C24_u8string"
   ],
   "note": "REFUTED for supplementary characters through UTF-16. Proved for all other strings and kinds, for u8string without condition."
  },
  {
   "property": "C25",
   "status": "partial",
   "theorems": [
    "C25_denotes_refuted",
    "C25_near_partial",
    "C25_exact_partial",
    "C25_negative_partial",
    "C25_shape"
   ],
   "note": "REFUTED: -1.5 prints as -2.5; every negative non-integral value is printed one too low (proved). Proved for values >= 0 and even radixes: error at most 2^-(prec-1), exact in radixes 2..32 that are powers of two and for values with few fractional bits; shape of the text for all values. IEEE arithmetic, four types."
  },
  {
   "property": "C26",
   "status": "partial",
   "theorems": [
    "C26_terminates_refuted",
    "C26_range_refuted",
    "C26_terminates_partial"
   ],
   "note": "REFUTED: 0.5 in any odd radix never terminates; integral parts outside long long, infinities and NaN are undefined. Proved for every other value in even radixes, and in all radixes with a place limit."
  },
  {
   "property": "C27",
   "status": "partial",
   "theorems": [
    "C27_round_trip_refuted",
    "C27_negative_refuted",
    "C27_separator_refuted",
    "C27_integral_partial",
    "C27_power_of_two_partial",
    "C27_near_partial",
    "C27_read_back",
    "C27_power_of_two_exact",
    "C27_denormal_refuted"
   ],
   "note": "REFUTED: double 0.875 in radix 10, -1.25, every text with a separator in the fraction, and the smallest value of every type (C27_denormal_refuted). Proved for integral values of either sign in every format. C27_read_back: exactly what is read back of every value >= 0 in power-of-two radixes, namely the value without what is below the last power of the radix the type can hold; C27_power_of_two_exact: so exactly the multiples of that power come back. For values x >= 0 in every even radix: what is read back is within (2p+33) 2^-p (x+1) of x."
  },
  {
   "property": "C28",
   "status": "partial",
   "theorems": [
    "C28_exactly_refuted",
    "C28_parse_refuted",
    "C28_format_partial",
    "C28_parse_partial"
   ],
   "note": "REFUTED: integral values get no places under exactly_equal; the parser ignores the limit except for a trailing radix character. Proved: at most n places always, exactly n for non-integral values; the exact trailing case."
  },
  {
   "property": "C29",
   "status": "proved",
   "theorems": [
    "C29_count_digits",
    "C29_bad_radix"
   ],
   "note": "Every integer type, every value of either sign, every radix >= 2; radix 0 is undefined and radix 1 never ends."
  },
  {
   "property": "C30",
   "status": "partial",
   "theorems": [
    "C30_symmetric",
    "C30_transitive",
    "C30_not_equal",
    "C30_reflexive_refuted",
    "C30_reflexive_partial",
    "C30_places_refuted",
    "C30_places_partial",
    "C30_whole_partial",
    "C30_close_refuted",
    "C30_close_partial",
    "C30_between"
   ],
   "note": "REFUTED: NaN and 0.0 with 400 places are not equal to themselves; double 0.3 and 0.25 agree in the first place but compare unequal; 1 - 2^-24 and 1 compare unequal up to no places. Proved: symmetry, transitivity, negation, betweenness, exact reflexivity condition, agreement of places away from rounding distance of the next unit (always for 0 places), equal values closer than 2 * 10^-k. std::pow is a parameter."
  },
  {
   "property": "C31",
   "status": "proved",
   "theorems": [
    "C31_buffered_output",
    "C31_as_unbuffered",
    "C31_existing_content",
    "C31_longer_refuted"
   ],
   "note": "Every capacity, every sequence of writes and flushes, elements of any size. Also: existing content is overwritten exactly while the writes stay within it; REFUTED beyond that (the container grows too much, see C36)."
  },
  {
   "property": "C32",
   "status": "partial",
   "theorems": [
    "C32_exact",
    "C32_position",
    "C32_seeking_partial",
    "C32_anywhere_partial",
    "C32_end_refuted",
    "C32_past_end_refuted",
    "C32_part_refuted"
   ],
   "note": "REFUTED: after a write over the end a seek to the end leads behind zeros (C32_end_refuted), and what is written past the end or as part of an element goes outside the container (C32_past_end_refuted, C32_part_refuted). Position proved for every sequence of writes and flushes. With seeks from the beginning or the current position to places in range, proved for every sequence of writes of whole elements, also over the end (C32_anywhere_partial); with seeks from the end, for writes that do not go over the end (C32_seeking_partial). C32_exact: the position and the end that are reported after every history of writes, flushes and seeks of any kind."
  },
  {
   "property": "C33",
   "status": "partial",
   "theorems": [
    "C33_sizes_exact",
    "C33_after_the_end",
    "C33_buffered_input_partial",
    "C33_long_read",
    "C33_buffered_input_refuted"
   ],
   "note": "REFUTED: every first read longer than the buffer and its filling returns the beginning twice (proved for all contents and capacities), and a short read after it that follows the end accesses memory outside the content (C33_after_the_end). Proved for all reads not longer than the buffer and for unbuffered resources; blocks of n bytes are read in order for all contents exactly when n is at most the capacity (C33_sizes_exact). What every sequence of reads gives: C35_exact."
  },
  {
   "property": "C34",
   "status": "partial",
   "theorems": [
    "C34_exact",
    "C34_relative",
    "C34_seek_input_partial",
    "C34_current_refuted",
    "C34_past_end"
   ],
   "note": "REFUTED: a relative seek after a buffered read is off by what was read from the buffer; a read after a seek past the end is undefined for every content. Proved for begin/end seeks in range after every disciplined history, and for relative seeks unbuffered or not after a buffered read. C34_exact: what every sequence of reads and seeks of every size does on every input container, with every buffer, undefined behaviour included (CursorSpec.v); C34_relative: a relative seek counts from the beginning of the buffer."
  },
  {
   "property": "C35",
   "status": "partial",
   "theorems": [
    "C35_exact",
    "C35_long_read",
    "C35_wide_elements_partial",
    "C35_wide_elements_refuted"
   ],
   "note": "REFUTED: a read longer than the buffer starts outside the container (C35_long_read: always, for elements of two or more bytes). Proved for all element sizes, for reads not longer than the buffer. C35_exact says what every sequence of reads of every size gives, for all element sizes, capacities and contents."
  },
  {
   "property": "C36",
   "status": "partial",
   "theorems": [
    "C36_exact",
    "C36_never_shorter",
    "C36_exact_partial",
    "C36_straddling",
    "C36_exact_refuted",
    "C36_gap",
    "C36_broken_element"
   ],
   "note": "REFUTED: a write from before the end to past it leaves zeros after it (exact result proved); past the end, or with part of an element, it writes outside the container (proved). Proved exact within the content and for whole elements at the end. C36_exact: what every sequence of writes, flushes and seeks of any kind does, for every capacity and element size, those that go outside the container included; C36_never_shorter."
  },
  {
   "property": "C37",
   "status": "partial",
   "theorems": [
    "C37_coherent_partial",
    "C37_lost_write_refuted",
    "C37_overflow_refuted",
    "C37_overflow",
    "C37_stale_refuted"
   ],
   "note": "REFUTED: a read loses pending writes, a write after a read goes outside the buffer (proved for all contents and capacities), reads after write and flush are stale. Proved for every interleaving with a seek between reading and writing and a seek or flush between writing and reading."
  },
  {
   "property": "C38",
   "status": "partial",
   "theorems": [
    "C38_at_most_requested",
    "C38_remaining_partial",
    "C38_remaining_refuted"
   ],
   "note": "REFUTED: 6 bytes reported where 3 are there. Proved in every state whatever: at most n reported, nothing after them changed. Proved after disciplined histories: exactly what is left, 0 at the end."
  },
  {
   "property": "C39",
   "status": "proved",
   "theorems": [
    "C39_delivers",
    "C39_tied"
   ],
   "note": "Every interleaving of writes and reads, every size and both capacities; the reads are undisturbed."
  },
  {
   "property": "C40",
   "status": "partial",
   "theorems": [
    "C40_bytes",
    "C40_round_trip_refuted",
    "C40_round_trip_partial",
    "C40_other_order_refuted",
    "C40_too_few"
   ],
   "note": "REFUTED: the input stream inverts twice, so in the byte order that is not the machine one every value comes back byte-reversed (proved for all values). Proved: the bytes written, for both orders; the round trip in the machine order; read_past_end on short input."
  },
  {
   "property": "C41",
   "status": "partial",
   "theorems": [
    "C41_invert_partial",
    "C41_empty_refuted",
    "C41_opposite"
   ],
   "note": "REFUTED for the empty block (pointer before the beginning). Proved for every other block, and for get_opposite_endianness."
  },
  {
   "property": "C42",
   "status": "partial",
   "theorems": [
    "C42_round_trip_refuted",
    "C42_code_points_partial",
    "C42_strings_partial"
   ],
   "note": "REFUTED: UTF-8 streams refuse U+1D800 (C01), UTF-16 strings with surrogate pairs are refused unless copied (C07). Proved for all other code points, every encoding, byte order, machine order on either side, and every pair of string kinds."
  },
  {
   "property": "C43",
   "status": "proved",
   "theorems": [
    "C43_bom",
    "C43_written",
    "C43_short"
   ],
   "note": "All encoding forms; the initial endianness is arbitrary. Also that write_bom writes what read_bom expects."
  },
  {
   "property": "C44",
   "status": "partial",
   "theorems": [
    "C44_no_bom_refuted",
    "C44_no_bom_exact_refuted",
    "C44_no_bom_partial"
   ],
   "note": "REFUTED: only the low byte of the first code unit is returned (proved for every first unit). Proved for UTF-8 and for first code points below 256."
  },
  {
   "property": "C45",
   "status": "partial",
   "theorems": [
    "C45_lines_refuted",
    "C45_lines_partial",
    "C45_lines_exact",
    "C45_lines_exist"
   ],
   "note": "REFUTED for a CR not followed by LF, which disappears. Proved for all other texts; exact result proved for all texts."
  },
  {
   "property": "C46",
   "status": "partial",
   "theorems": [
    "C46_words_refuted",
    "C46_words_partial",
    "C46_words_exact",
    "C46_words_exist"
   ],
   "note": "REFUTED for a CR not followed by LF, which does not separate words. Proved for all other texts; exact result proved for all texts."
  },
  {
   "property": "C47",
   "status": "partial",
   "theorems": [
    "C47_numbers_refuted",
    "C47_numbers_partial"
   ],
   "note": "REFUTED for the minimum of a signed type (C17). Proved for all other values, sequences of any length below 2^50, encodings and byte orders."
  },
  {
   "property": "C48",
   "status": "proved",
   "theorems": [
    "C48_read_refused",
    "C48_write_refused",
    "C48_reopened",
    "C48_permitted"
   ],
   "note": "For every history and operating system behaviour, both platforms, constructor and open; also that permitted calls do not throw."
  },
  {
   "property": "C49",
   "status": "partial",
   "theorems": [
    "C49_in_order_partial",
    "C49_short_read_refuted",
    "C49_buffer_overrun_refuted",
    "C49_within_block",
    "C49_huge_read_refuted"
   ],
   "note": "REFUTED on Unix-like systems: after a short read the bytes are out of order and too many are reported, and with a buffer the next read leaves the buffer; REFUTED on Windows for reads of 2^32 bytes. Proved: on Windows with any short reads and failures, on Unix-like systems with any failures, for reads up to the capacity; unbuffered reads never leave the block, whatever the system does."
  },
  {
   "property": "C50",
   "status": "partial",
   "theorems": [
    "C50_written_partial",
    "C50_unbuffered",
    "C50_silent_loss_refuted"
   ],
   "note": "REFUTED with a buffer: flush and close do not report a refused write. Proved: all bytes in order if the system obliges; without a buffer the reports are exact whatever the system does."
  },
  {
   "property": "C51",
   "status": "partial",
   "theorems": [
    "C51_reopen_partial",
    "C51_stale_refuted",
    "C51_at_end_refuted",
    "C51_at_end_terminates_refuted"
   ],
   "note": "REFUTED: opened in the middle of buffered reads, the next reads give bytes of the first file; is_at_end refers to the file of the constructor, or ends the program. Proved otherwise, for all histories before and after."
  },
  {
   "property": "C52",
   "status": "partial",
   "theorems": [
    "C52_first_run_partial",
    "C52_plain",
    "C52_second_run_refuted",
    "C52_throwing_test"
   ],
   "note": "REFUTED for a second run: failures accumulate. Proved for the first run of any test functions that start no more tests than the index width allows, and in full for the usual test functions."
  },
  {
   "property": "C53",
   "status": "proved",
   "theorems": [
    "C53_fifo",
    "C53_empty_after_test"
   ],
   "note": "Every sequence of queue calls; after every end of a test."
  },
  {
   "property": "C54",
   "status": "partial",
   "theorems": [
    "C54_texts_sorted",
    "C54_zero_pad_partial",
    "C54_outside_refuted"
   ],
   "note": "REFUTED: nine tests run twice write outside the string. Proved: exact text when the index fits the width, undefined behaviour exactly otherwise; texts of a module sort as the indexes do."
  },
  {
   "property": "C55",
   "status": "partial",
   "theorems": [
    "C55_last_constructed",
    "C55_live_refuted",
    "C55_live_partial",
    "C55_none"
   ],
   "note": "REFUTED: the pointer dangles after destruction and after a move. Proved: it is always the object constructed last, and is right while that object lives untouched."
  },
  {
   "property": "C56",
   "status": "partial",
   "theorems": [
    "C56_handlers_partial",
    "C56_owner_partial",
    "C56_nobody_partial",
    "C56_moved_partial",
    "C56_closed_partial",
    "C56_refused_partial",
    "C56_destroyed_refuted",
    "C56_second_close_refuted",
    "C56_moved_closed_refuted",
    "C56_reused_handle_refuted",
    "C56_assign_empty_refuted",
    "C56_assign_refused_refuted",
    "C56_close_in_handler_refuted",
    "C56_close_hidden_refuted"
   ],
   "note": "REFUTED in general: objects let go with their window, second closes, moving closed objects, move assignment after a refused close or (Windows) to an empty object, and closing windows in close handlers lead to undefined behaviour or to events for the wrong object. Proved for all other histories, with handlers that act, on all three toolkits: every handler call is the expected one; events follow the owner through moves; accepted closes end them; refused ones change nothing."
  },
  {
   "property": "C57",
   "status": "partial",
   "theorems": [
    "C57_copy_refuted",
    "C57_move_refuted",
    "C57_dangling_refuted",
    "C57_copy",
    "C57_dangling",
    "C57_independent_partial"
   ],
   "note": "REFUTED: a copy or moved object works on the other object (proved for every call), dangling once that is gone. Proved for constructed objects that are not themselves copied, moved or assigned."
  },
  {
   "property": "C58",
   "status": "proved",
   "theorems": [
    "C58_names",
    "C58_complete",
    "C58_distinct",
    "C58_translated",
    "C58_unlisted"
   ],
   "note": "All keys, all native codes of Windows, GTK and macOS. Values of the enumeration type that are no keys give undefined behaviour (example beside the theorem)."
  },
  {
   "property": "C59",
   "status": "partial",
   "theorems": [
    "C59_parse_refuted",
    "C59_parse_partial",
    "C59_near_partial",
    "C59_negative_refuted",
    "C59_late_digits"
   ],
   "note": "REFUTED: \"-1.5\" is read as -0.5. Proved exact for non-negative texts in power-of-two radixes; in every radix and for every length of text: within (2p+31) 2^-p (v+1) of the number v denoted. Texts below zero with a fraction are all read as the integral part plus the fraction. C59_late_digits: in power-of-two radixes digits so far behind the point that r^places overflows the type are ignored."
  },
  {
   "property": "C60",
   "status": "proved",
   "theorems": [
    "C60_invalid_radix",
    "C60_valid_radix"
   ],
   "note": "Constructor, setter, both directions, all values and texts."
  },
  {
   "property": "C61",
   "status": "partial",
   "theorems": [
    "C61_exact",
    "C61_position_partial",
    "C61_position_refuted",
    "C61_at_end_refuted"
   ],
   "note": "REFUTED: position -2 after reading two bytes of a wide string through a buffer. Proved for byte containers, for unbuffered resources and for writing; is_at_end except while appended bytes are pending. C61_exact: what is reported after every history of reads and seeks on every input container."
  },
  {
   "property": "C62",
   "status": "partial",
   "theorems": [
    "C62_unnoticed",
    "C62_waiting_moves",
    "C62_go_back_forward_partial",
    "C62_go_back_refuted"
   ],
   "note": "REFUTED: go_back after a buffered read has no effect and then reads outside the container. Proved unbuffered, and buffered when nothing was read or written since the last seek. C34_exact (input) and C36_exact (output) cover go_back and go_forward in every history; C62_unnoticed: which reads after go_back do not notice it and which leave the container, for all contents; C62_waiting_moves: what waits in the buffer is written where go_back leads to."
  },
  {
   "property": "C63",
   "status": "partial",
   "theorems": [
    "C63_strict_refuted",
    "C63_decoding_partial",
    "C63_settles"
   ],
   "note": "REFUTED: overlong UTF-8 forms, surrogates in UTF-8 and UTF-32 values that are no scalar values are returned as code points. Proved: exactly the sequences of the lenient decoder are accepted, everything else is refused with one of the two exceptions; lines, words and whole inputs always end, with a result or a documented exception, for every byte sequence and string kind."
  },
  {
   "property": "C64",
   "status": "partial",
   "theorems": [
    "C64_seeks_exact",
    "C64_go_back",
    "C64_writes_exact",
    "C64_waiting_moves",
    "C64_never_shorter",
    "C64_as_bytes_partial",
    "C64_long_read_refuted",
    "C64_write_after_read_refuted",
    "C64_read_after_write_refuted",
    "C64_reads_exact",
    "C64_long_then_short",
    "C64_sizes_exact"
   ],
   "note": "REFUTED: a read longer than the buffer repeats bytes, a write after a read leaves the buffer, a read after a write loses the write. Proved for all histories that keep apart buffered reads and writes (FileSpec.v), both platforms, all capacities and modes. C64_seeks_exact: what every sequence of reads and seeks of every kind gives, what position and end report, on every file, with every buffer (FileCursorSpec.v); C64_reads_exact: the same for reads alone; C64_sizes_exact: blocks of n bytes are read right from all files exactly if n is at most the capacity; C64_long_then_short: a long read gives the beginning twice, and the next read hides it; C64_go_back: go_back is not noticed and later leads to the beginning of the file. C64_writes_exact: the same for every sequence of writes, flushes and seeks (FilePenSpec.v), with what is on the disk afterwards and once the file is closed; C64_waiting_moves: what waits in the buffer is written where go_forward leads to; C64_never_shorter."
  },
  {
   "property": "C65",
   "status": "partial",
   "theorems": [
    "C65_other_files",
    "C65_two_files_partial",
    "C65_one_file_refuted"
   ],
   "note": "REFUTED for two objects on one file. Proved: no other file changes, whatever the system does; two objects on different files are independent in every interleaving. C148_exact says what two objects on one file do to each other if each is used in one direction."
  },
  {
   "property": "C66",
   "status": "proved",
   "theorems": [
    "C66_open",
    "C66_opens",
    "C66_open_again"
   ],
   "note": "Any operating system behaviour, both platforms; for an object with a file open, open first closes it."
  },
  {
   "property": "C67",
   "status": "partial",
   "theorems": [
    "C67_closed_partial",
    "C67_closes_refuted",
    "C67_buffer_refuted"
   ],
   "note": "REFUTED: the destructor of the moved-from object closes the descriptor of the new one, and reads from the emptied buffer if bytes are waiting. Proved for closed file objects."
  },
  {
   "property": "C68",
   "status": "partial",
   "theorems": [
    "C68_relative",
    "C68_unix_begin_partial",
    "C68_stays_partial",
    "C68_platforms_refuted",
    "C68_in_reads_refuted"
   ],
   "note": "REFUTED: Windows ignores negative positions from the beginning, Unix-like systems clamp them; in the middle of buffered reads the position jumps to where the buffer was filled. Proved: the clamping, and that all other such seeks outside buffered reads act as a flush. C64_seeks_exact: where every seek leads in every history of reads and seeks, both platforms; C68_relative: a relative seek in the first buffer counts from the beginning of the file."
  },
  {
   "property": "C69",
   "status": "partial",
   "theorems": [
    "C69_answers",
    "C69_open_partial",
    "C69_twice_partial",
    "C69_failed_partial",
    "C69_reopen_refuted"
   ],
   "note": "REFUTED: a closed window keeps its handle and open returns false. Proved for objects without a window because of failure or a move, and for open windows."
  },
  {
   "property": "C70",
   "status": "partial",
   "theorems": [
    "C70_idle_partial",
    "C70_once_partial",
    "C70_close_refuted"
   ],
   "note": "REFUTED: a window closed in its update function makes the loop use an invalid iterator. Proved for update functions that neither open nor close windows."
  },
  {
   "property": "C71",
   "status": "partial",
   "theorems": [
    "C71_reused_partial",
    "C71_times_partial",
    "C71_assign_refused_refuted"
   ],
   "note": "REFUTED: a move with = whose close was refused leaves two windows with one object, whose times mix (C71_assign_refused_refuted). Proved for the histories of C56 (C71_times_partial); when the system uses the handle of a window again, the totals of the new window start from zero (C71_reused_partial). Clock ticks, the conversion to double is C105."
  },
  {
   "property": "C72",
   "status": "partial",
   "theorems": [
    "C72_ends_partial",
    "C72_destroyed_refuted"
   ],
   "note": "REFUTED for objects let go with their window: the loop goes on. Proved for the histories of C56."
  },
  {
   "property": "C73",
   "status": "proved",
   "theorems": [
    "C73_prompts_first",
    "C73_prompts_first_text"
   ],
   "note": "For systems that take what the program writes (see C74). Sizes below 2^32; on Windows an input buffer of at least two bytes for text."
  },
  {
   "property": "C74",
   "status": "partial",
   "theorems": [
    "C74_flush_partial",
    "C74_program_end_partial",
    "C74_nothing_else_partial",
    "C74_text_partial",
    "C74_short_write_refuted"
   ],
   "note": "REFUTED: when the system takes only part of a block, the rest is lost and nothing is reported. Proved for systems that take every block."
  },
  {
   "property": "C75",
   "status": "proved",
   "theorems": [
    "C75_answers"
   ],
   "note": "Text of scalar values, strings that can take the answer (C01); carriage returns only before line feeds."
  },
  {
   "property": "C76",
   "status": "proved",
   "theorems": [
    "C76_no_needless_wait",
    "C76_no_needless_wait_text"
   ],
   "note": "For systems that take what the program writes."
  },
  {
   "property": "C77",
   "status": "partial",
   "theorems": [
    "C77_input_in_order_partial",
    "C77_failure_refuted",
    "C77_failure_count_refuted",
    "C77_redirected_refuted"
   ],
   "note": "REFUTED: after a failed read on Unix-like systems bytes are given twice and memory outside the buffer is read, or 2^64-1 bytes are reported; on Windows the number of bytes is indeterminate. Proved when no read fails."
  },
  {
   "property": "C78",
   "status": "partial",
   "theorems": [
    "C78_last_line_refuted",
    "C78_last_word_refuted",
    "C78_read_all_refuted",
    "C78_end_reported_partial"
   ],
   "note": "REFUTED for every text: is_at_end is always false, so that the last line or word without terminator and read_all end in read_past_end. Proved: questions after the last answer report the end."
  },
  {
   "property": "C79",
   "status": "partial",
   "theorems": [
    "C79_library_refuted",
    "C79_header_only_partial",
    "C79_order_exact",
    "C79_destroyed"
   ],
   "note": "REFUTED for the compiled library: uin_resource refers to the base class of uout_resource before its construction. Proved for the header-only library; destruction is in order in both (C74_program_end_partial). C79_order_exact and C79_destroyed: which orders of construction and destruction are right."
  },
  {
   "property": "C80",
   "status": "partial",
   "theorems": [
    "C80_text_file_partial",
    "C80_longer_file_refuted"
   ],
   "note": "REFUTED for an existing longer file: opening does not empty it, and its old tail is read behind the new text. Proved otherwise, also across platforms, for every system that transfers all it is asked to, texts whose carriage returns are followed by line feeds, convertible strings (C01, C42) and no least values of signed types (C17)."
  },
  {
   "property": "C81",
   "status": "partial",
   "theorems": [
    "C81_any_mix_partial",
    "C81_single_cr_refuted",
    "C81_any_mix_exact"
   ],
   "note": "REFUTED for a CR without LF, which disappears. Proved for all texts whose carriage returns are followed by line feeds, and exactly for all others; convertible strings, no least values of signed types."
  },
  {
   "property": "C82",
   "status": "partial",
   "theorems": [
    "C82_appended_partial",
    "C82_character_refuted"
   ],
   "note": "REFUTED for U+1D800 and the like in UTF-8 (C82_character_refuted). Proved with the restrictions of C80 (which come from other properties)."
  },
  {
   "property": "C83",
   "status": "partial",
   "theorems": [
    "C83_any_system_partial",
    "C83_short_read_refuted"
   ],
   "note": "REFUTED on Unix-like systems: one short read makes wrong text, or memory outside the buffer is read. Proved on Windows for every behaviour of the system, on Unix-like systems for failures."
  },
  {
   "property": "C84",
   "status": "partial",
   "theorems": [
    "C84_write_refused",
    "C84_read_refused_partial",
    "C84_at_end_refuted"
   ],
   "note": "REFUTED at the end of the file: lines, words and rests are read as empty strings. Proved for all writing, for reading characters, and for all reading elsewhere."
  },
  {
   "property": "C85",
   "status": "partial",
   "theorems": [
    "C85_lost_refuted",
    "C85_not_there_refuted",
    "C85_kept_partial"
   ],
   "note": "REFUTED: a refused write loses the text, with a buffer and without, and so does a file that could not be opened; nothing is reported. Proved when the system transfers all it is asked to."
  },
  {
   "property": "C86",
   "status": "partial",
   "theorems": [
    "C86_copied_partial",
    "C86_character_refuted",
    "C86_longer_refuted"
   ],
   "note": "REFUTED for U+1D800 and the like to UTF-8 (C86_character_refuted), and for a target that was longer before, which keeps its end (C86_longer_refuted). Proved with the restrictions of C80."
  },
  {
   "property": "C87",
   "status": "partial",
   "theorems": [
    "C87_marked_partial",
    "C87_single_cr_refuted"
   ],
   "note": "REFUTED for a carriage return without line feed, which disappears (C87_single_cr_refuted). Proved with the restrictions of C80."
  },
  {
   "property": "C88",
   "status": "partial",
   "theorems": [
    "C88_byte_order_refuted",
    "C88_appended_partial"
   ],
   "note": "REFUTED: read_bom sets the byte order of reading only; text appended by a stream constructed with the other byte order is unreadable. Proved for a stream constructed with the byte order of the file."
  },
  {
   "property": "C89",
   "status": "partial",
   "theorems": [
    "C89_titles_partial",
    "C89_titles_refuted",
    "C89_zero_refuted"
   ],
   "note": "REFUTED on Windows for titles with supplementary characters, which get_title refuses (C07), and everywhere for titles with U+0000, which end there. Proved for all other titles and histories; on macOS objects without window are not asked (C90)."
  },
  {
   "property": "C90",
   "status": "partial",
   "theorems": [
    "C90_without_window_partial",
    "C90_without_window_refuted"
   ],
   "note": "REFUTED: with GTK and macOS the window object uses the destroyed window; on macOS get_title without window dereferences a null pointer. Proved on Windows, and with GTK and macOS for objects that have none because of failure or a move."
  },
  {
   "property": "C91",
   "status": "partial",
   "theorems": [
    "C91_looks_partial",
    "C91_windows",
    "C91_again_refuted",
    "C91_minimized_refuted",
    "C91_macos"
   ],
   "note": "REFUTED on Windows: a maximized window that is hidden and shown is restored (proved to be the only difference); on macOS a minimized window may be restored when shown. Proved for GTK, and for macOS without minimized windows; what macOS does with minimized ones is proved exactly (C91_macos)."
  },
  {
   "property": "C92",
   "status": "partial",
   "theorems": [
    "C92_refused_title_partial",
    "C92_gtk_partial",
    "C92_macos_refuted",
    "C92_macos_set_title_partial"
   ],
   "note": "REFUTED on macOS: after a refused title the object has a window without association, and moving it or closing the window is undefined. Proved on Windows for every byte sequence and state, with the exact set of refused titles; set_title on macOS refuses exactly what is not UTF-8; GTK refuses no title, and gives it back."
  },
  {
   "property": "C93",
   "status": "proved",
   "theorems": [
    "C93_centred",
    "C93_kept"
   ],
   "note": "Windows; that windows keep their size and place is proved for all three toolkits (C93_kept). The limits that the system sets to sizes are not modelled."
  },
  {
   "property": "C94",
   "status": "partial",
   "theorems": [
    "C94_values_partial",
    "C94_other_order_refuted",
    "C94_longer_file_refuted",
    "C94_lost_refuted",
    "C94_appended_partial"
   ],
   "note": "REFUTED for readers on a machine of the other byte order, who get every value with its bytes reversed (C40); for an older file that is longer, which keeps its tail; and when the system refuses the write, which loses the values silently. Proved for writers on any machine and platform and readers on machines of the byte order of the file."
  },
  {
   "property": "C95",
   "status": "partial",
   "theorems": [
    "C95_table_partial",
    "C95_byte_order_refuted",
    "C95_in_turn_refuted",
    "C95_in_turn_ub_refuted"
   ],
   "note": "REFUTED with a byte order that is not the machine's, and for values taken and put in turn without setting the position (lost, or undefined behaviour; C64). Proved for all sequences of operations that set the position, in the byte order of the machine."
  },
  {
   "property": "C96",
   "status": "partial",
   "theorems": [
    "C96_whole_file_partial",
    "C96_other_order_refuted"
   ],
   "note": "REFUTED in the byte order that is not that of the machine (C96_other_order_refuted). Proved for every content in the byte order of the machine (see C94), for systems that transfer all they are asked to (see C97)."
  },
  {
   "property": "C97",
   "status": "partial",
   "theorems": [
    "C97_any_system_partial",
    "C97_short_read_refuted"
   ],
   "note": "REFUTED on Unix-like systems: one short read makes a wrong value. Proved on Windows for every behaviour of the system, on Unix-like systems for failures."
  },
  {
   "property": "C98",
   "status": "proved",
   "theorems": [
    "C98_write_refused",
    "C98_read_refused"
   ],
   "note": "Values of at least one byte."
  },
  {
   "property": "C99",
   "status": "partial",
   "theorems": [
    "C99_saved_partial",
    "C99_same_refuted",
    "C99_negative_refuted",
    "C99_range_refuted"
   ],
   "note": "REFUTED: numbers need not come back the same (0.6875f), a number below zero with a fraction is written as another one and read as a third (C25, C59), and infinities, NaN and integral parts that do not fit a long long are undefined behaviour. Proved: the lines denote the numbers to within 2^(1-p), each number comes back to within (2p+33) 2^-p (x+1), and integral ones exactly."
  },
  {
   "property": "C100",
   "status": "partial",
   "theorems": [
    "C100_loaded_partial",
    "C100_closest_refuted",
    "C100_negative_refuted"
   ],
   "note": "REFUTED: the value need not be the closest one (0.6875 as a float), and the fraction of a number below zero is added to it. Proved for numbers that are not negative, to within (2p+31) 2^-p (v+1)."
  },
  {
   "property": "C101",
   "status": "proved",
   "theorems": [
    "C101_lives",
    "C101_balance"
   ],
   "note": "A program is undefined exactly if it uses an object that is not there or lets a dummy report to a module that is not."
  },
  {
   "property": "C102",
   "status": "partial",
   "theorems": [
    "C102_moved_refuted",
    "C102_messages_partial"
   ],
   "note": "REFUTED: dummies go on reporting to the module that was moved from, and destroying one is undefined once that module is gone. Proved: the waiting messages go along."
  },
  {
   "property": "C103",
   "status": "partial",
   "theorems": [
    "C103_exit_status_partial",
    "C103_exit_status_refuted",
    "C103_status",
    "C103_throwing"
   ],
   "note": "REFUTED on Unix-like systems: with 256 failures the exit status is zero. Proved on Windows, and for fewer failures; C103_status gives the exact status for any test functions."
  },
  {
   "property": "C104",
   "status": "proved",
   "theorems": [
    "C104_printed",
    "C104_readable"
   ],
   "note": "For a first run whose started tests fit the width of their number (see C54 for the others); reading back: plain tests with names of one line."
  },
  {
   "property": "C105",
   "status": "partial",
   "theorems": [
    "C105_told",
    "C105_sum_refuted",
    "C105_sum_partial"
   ],
   "note": "REFUTED for sums: deltas of 0.1 and 0.2 s add up to another double than the total. Proved: all the rest, and that the sum of k deltas is within k+2 parts in 2^52 of the time. Histories of C71."
  },
  {
   "property": "C106",
   "status": "partial",
   "theorems": [
    "C106_whole_partial",
    "C106_whole_refuted"
   ],
   "note": "REFUTED: after 9007199.999999999 s the total rounds to 9007200. Proved below 2^53 nanoseconds."
  },
  {
   "property": "C107",
   "status": "partial",
   "theorems": [
    "C107_title_partial",
    "C107_counter_partial",
    "C107_title_refuted"
   ],
   "note": "REFUTED: switched off and on within a second, the title is the name although the counter is on. Proved: the exact title after every sequence within 2^53 nanoseconds."
  },
  {
   "property": "C108",
   "status": "proved",
   "theorems": [
    "C108_kept",
    "C108_container",
    "C108_same_calls"
   ],
   "note": "For every device that takes all of a write or throws and takes nothing; C108_container: containers of bytes written to at their end."
  },
  {
   "property": "C109",
   "status": "partial",
   "theorems": [
    "C109_kept_refuted",
    "C109_accounts_partial",
    "C109_kept_partial"
   ],
   "note": "REFUTED: a read that spans the buffer consumes its bytes before it asks the device, and loses them when that fails. Proved: exactly which bytes are lost (fewer than asked for, at failing reads only), and none without buffer or when reading byte by byte."
  },
  {
   "property": "C110",
   "status": "partial",
   "theorems": [
    "C110_ends_refuted",
    "C110_destructor_partial",
    "C110_position_partial"
   ],
   "note": "REFUTED: a container that cannot grow ends the program there. Proved: only if bytes wait and the device refuses them; otherwise all bytes are on the device."
  },
  {
   "property": "C111",
   "status": "partial",
   "theorems": [
    "C111_unchanged_refuted",
    "C111_left_partial",
    "C111_unchanged_partial",
    "C111_reserved",
    "C111_same_calls"
   ],
   "note": "REFUTED: the first units of the code point stay in the string. Proved: exactly what is left; unchanged for code points of one unit; no request when there is room."
  },
  {
   "property": "C112",
   "status": "partial",
   "theorems": [
    "C112_once_refuted",
    "C112_once_partial",
    "C112_kinds"
   ],
   "note": "REFUTED for targets that need more units than the source. Proved for all others, among them all conversions from UTF-8, from UTF-16 to UTF-32 and between strings of one kind."
  },
  {
   "property": "C113",
   "status": "partial",
   "theorems": [
    "C113_old_bytes",
    "C113_current_refuted",
    "C113_current_partial",
    "C113_repositioned_partial"
   ],
   "note": "REFUTED: a buffered read returns bytes that are gone, and a container that has become shorter than the position is read outside of its bounds. Proved without buffer while the container stays long enough, and with a buffer if the position is set after every change. C114_exact says what readers get after every change, with requests and seeks of any kind; C113_old_bytes: what is in the buffer is handed out whatever the owner did, for all contents."
  },
  {
   "property": "C114",
   "status": "partial",
   "theorems": [
    "C114_exact",
    "C114_pipe_refuted",
    "C114_pipe_partial",
    "C114_order_partial",
    "C114_tied_partial"
   ],
   "note": "REFUTED for requests longer than the buffer of the reader (as C33). Proved for all others, with the exact queue for tied resources. C114_exact: any number of writers and readers of one container and its owner, in every order, with calls of any kind and size, give the content, answers and positions of the machine of CrowdSpec.v, and reach outside the container exactly when it says so."
  },
  {
   "property": "C115",
   "status": "partial",
   "theorems": [
    "C115_exact",
    "C115_emptied_refuted",
    "C115_emptied_partial"
   ],
   "note": "REFUTED: the next write is outside of the container. Proved if the position is set to the beginning after the container has been emptied. C115_exact: where the next bytes go after the owner changed the content, for every content: outside the container exactly if it is shorter than what was written before."
  },
  {
   "property": "C116",
   "status": "partial",
   "theorems": [
    "C116_replies_refuted",
    "C116_replies_partial",
    "C116_one_word_each_partial",
    "C116_until_partial"
   ],
   "note": "REFUTED by the defects of the parser (C20 to C22): numbers that do not fit and signs inside a number give a wrong number, characters above 255 are undefined behaviour. Proved: every question uses up exactly one word, whatever the word; the replies are right for words without these defects; the loop ends with the first right answer."
  },
  {
   "property": "C117",
   "status": "partial",
   "theorems": [
    "C117_order_refuted",
    "C117_order_partial",
    "C117_unbuffered_partial"
   ],
   "note": "REFUTED when the standard output has a buffer: uerr does not flush uout. Proved for programs that flush one channel before they use the other (a question flushes uout), and for all programs when neither channel has a buffer."
  },
  {
   "property": "C118",
   "status": "proved",
   "theorems": [
    "C118_reactive"
   ],
   "note": "For texts that can be written (C42) and answers the strings asked for can take (C01); each wait is matched with the question it belongs to."
  },
  {
   "property": "C119",
   "status": "partial",
   "theorems": [
    "C119_demo_partial",
    "C119_redirected_refuted",
    "C119_word_refuted",
    "C119_unfinished_refuted",
    "C119_library_refuted"
   ],
   "note": "REFUTED if the output goes to a file or a pipe (the line printed with std::cout comes last, for every input), for words with U+1D800-like code points and words followed by the end of the input (terminate), and for the compiled library (C79). Proved for all other words at a terminal."
  },
  {
   "property": "C120",
   "status": "partial",
   "theorems": [
    "C120_objects_partial",
    "C120_destroyed_refuted",
    "C120_moved_refuted",
    "C120_tie_stays_refuted",
    "C120_assign_refuted"
   ],
   "note": "REFUTED: a tie stays at the address of the output, so reads after the output is destroyed or moved are undefined behaviour or deliver nothing; and move assignment may move the shared virtual base twice, which loses the buffer (output lost, input read again). Proved for every history without these and with reads no longer than the buffer."
  },
  {
   "property": "C121",
   "status": "partial",
   "theorems": [
    "C121_traits_partial",
    "C121_one_kind",
    "C121_volatile_pointer_refuted",
    "C121_unsized_refuted"
   ],
   "note": "REFUTED for pointers that are themselves volatile (not text) and for types without a size (the traits do not compile instead of saying no). Proved exactly for all other types and all traits."
  },
  {
   "property": "C122",
   "status": "partial",
   "theorems": [
    "C122_shown_partial",
    "C122_text",
    "C122_characters_refuted",
    "C122_pointers_refuted",
    "C122_left_out_refuted"
   ],
   "note": "REFUTED: char8_t, char16_t and wchar_t are shown as numbers; every pointer, array or function that is not text compiles and is shown as a bool; volatile strings, nullptr and most enumerations do not compile. Proved: the complete list of types that compile and how each is shown; all text without volatile is shown as text."
  },
  {
   "property": "C123",
   "status": "partial",
   "theorems": [
    "C123_read_back_partial",
    "C123_char_refuted"
   ],
   "note": "REFUTED for char (shown as a character, read as a number). Proved for every other type without volatile."
  },
  {
   "property": "C124",
   "status": "partial",
   "theorems": [
    "C124_text_functions_partial",
    "C124_volatile_refuted",
    "C124_validate_refuted"
   ],
   "note": "REFUTED for volatile text (satisfies the concept, compiles nowhere) and for validate_string with views and pointers. Proved for all text without volatile in the other functions."
  },
  {
   "property": "C125",
   "status": "partial",
   "theorems": [
    "C125_chains_partial",
    "C125_parts",
    "C125_flush_refuted",
    "C125_turn_refuted"
   ],
   "note": "REFUTED: nothing but another flush can follow a flush in a chain, and a stream that both writes and reads cannot do both in one chain. Proved: exactly the other chains compile, and do what their parts do in order."
  },
  {
   "property": "C126",
   "status": "partial",
   "theorems": [
    "C126_objects_partial",
    "C126_temporaries_refuted",
    "C126_volatile_refuted"
   ],
   "note": "REFUTED for temporaries and literals (stream << 5 does not compile) and for volatile variables. Proved exactly which other variables can be written and read, and that what can be read can be written."
  },
  {
   "property": "C127",
   "status": "partial",
   "theorems": [
    "C127_threads_partial",
    "C127_tied_refuted"
   ],
   "note": "REFUTED for tied objects: a thread that only reads from an input races with a thread that only writes to the output tied to it (as uin and uout are). Proved for any number of threads and every schedule where ties do not cross threads."
  },
  {
   "property": "C128",
   "status": "proved",
   "theorems": [
    "C128_whole",
    "C128_torn",
    "C128_closing",
    "C128_same_calls",
    "C128_two_files"
   ],
   "note": "The system calls each call makes are recorded (C128_same_calls: the calls are those of C50 and C64); C128_whole for kills between system calls, C128_torn for kills within one, C128_closing for kills while the file is closed or destroyed, C128_two_files for a process that has two files open."
  },
  {
   "property": "C129",
   "status": "partial",
   "theorems": [
    "C129_characters_partial",
    "C129_bytes_partial",
    "C129_surrogates_refuted",
    "C129_torn_refuted"
   ],
   "note": "REFUTED: UTF-16 in the byte order that is not that of the machine writes the two units of a pair in two calls, and a kill between them leaves half a character (C129_surrogates_refuted); a system call cut short leaves part of a character in any encoding (C129_torn_refuted). Proved: whole characters in all other cases (C129_characters_partial), and in every case an initial part of the bytes with all that was flushed (C129_bytes_partial)."
  },
  {
   "property": "C130",
   "status": "proved",
   "theorems": [
    "C130_values",
    "C130_read_back"
   ],
   "note": "Every value is one write, so C128 gives whole values; C130_values for the bytes on the disk, C130_read_back for what a later process reads."
  },
  {
   "property": "C131",
   "status": "partial",
   "theorems": [
    "C131_suite_partial",
    "C131_text_input_partial",
    "C131_containers_partial",
    "C131_big_endian_refuted",
    "C131_small_buffer_refuted"
   ],
   "note": "REFUTED: three tests of containers fail on big-endian machines (C131_big_endian_refuted), and with a default capacity of one byte a test of data streams fails and the program testing text input is terminated (C131_small_buffer_refuted). Proved: all tests and programs of the suite with the default capacity, on every machine (C131_suite_partial), the containers on little-endian machines (C131_containers_partial), and text input with any buffer that holds a code unit (C131_text_input_partial). Missing: the three tests that compute with floating-point numbers are evaluated in SuiteProps.v but not part of a theorem."
  },
  {
   "property": "C132",
   "status": "partial",
   "theorems": [
    "C132_characters_partial",
    "C132_signed_char_refuted"
   ],
   "note": "REFUTED where char is signed: the character 0xE9 is visited as 0xFFFFFFE9 and converted to that (C132_signed_char_refuted). Proved for unsigned char and for characters below 128 (C132_characters_partial)."
  },
  {
   "property": "C133",
   "status": "partial",
   "theorems": [
    "C133_increment_partial",
    "C133_postfix",
    "C133_minus_partial",
    "C133_equality",
    "C133_arithmetic_terminates_refuted",
    "C133_cut_strings_refuted"
   ],
   "note": "REFUTED: it + n, it - n and it -= n are noexcept and end the program where it += n throws (C133_arithmetic_terminates_refuted), and ++it at the end of a truncated string reads behind it (C133_cut_strings_refuted). Proved: ++it stays within strings that end with a whole character or throws (C133_increment_partial), the postfix forms (C133_postfix), it - n on well-formed text (C133_minus_partial), equality (C133_equality); --it on any text is C11."
  },
  {
   "property": "C134",
   "status": "partial",
   "theorems": [
    "C134_same_partial",
    "C134_no_file_refuted",
    "C134_before_beginning_refuted",
    "C134_short_read_refuted"
   ],
   "note": "REFUTED: the position of a file that is not open is -1 and indeterminate (C134_no_file_refuted), a negative position from the beginning leads to the beginning and nowhere (C134_before_beginning_refuted), short reads are put together differently (C134_short_read_refuted). Proved for all other histories with transfers below 4 GiB, also misuse and failing system calls: the same outcome, undefined behaviour included (C134_same_partial)."
  },
  {
   "property": "C135",
   "status": "partial",
   "theorems": [
    "C135_results",
    "C135_shown",
    "C135_report_partial",
    "C135_glued_refuted",
    "C135_abort_partial",
    "C135_lost_refuted"
   ],
   "note": "REFUTED: a message that does not end its line swallows the next line of the report for a filter (C135_glued_refuted); an informational message ended with a newline character and not with std::endl is lost when the test then throws (C135_lost_refuted). Proved: no influence on results (C135_results), everything is shown in order (C135_shown), the report can be recovered when names and messages are whole lines (C135_report_partial), everything is shown before an abnormal end when the last thing that happened was not an unfinished message (C135_abort_partial)."
  },
  {
   "property": "C136",
   "status": "partial",
   "theorems": [
    "C136_past_partial",
    "C136_unwritten",
    "C136_flushed_refuted",
    "C136_order_refuted",
    "C136_zeros_refuted"
   ],
   "note": "REFUTED: nothing is brought to the disk on purpose, so what was flushed, or closed, may be lost (C136_flushed_refuted), later data may be there without earlier data (C136_order_refuted), a file may have grown without its bytes (C136_zeros_refuted). Proved: files not written to are unchanged (C136_unwritten); of others every byte is one the file had at this place, or zero where it had ended (C136_past_partial)."
  },
  {
   "property": "C137",
   "status": "partial",
   "theorems": [
    "C137_wrong_first_partial",
    "C137_answers_partial",
    "C137_right_partial",
    "C137_no_number_refuted",
    "C137_accepted_refuted",
    "C137_defined_refuted"
   ],
   "note": "REFUTED: an answer that is no number ends the program without results (C137_no_number_refuted), a wrong answer such as 7-5 for -75 is taken for right (C137_accepted_refuted), numbers that do not fit, and the library build, are undefined behaviour (C137_defined_refuted). Proved for all other answers: all that is shown, when, and the exit status (C137_right_partial, C137_answers_partial, C137_wrong_first_partial); the second number is not taken for the least int."
  },
  {
   "property": "C138",
   "status": "partial",
   "theorems": [
    "C138_same_partial",
    "C138_macos_partial",
    "C138_gtk_partial",
    "C138_hidden_refuted",
    "C138_assign_refuted",
    "C138_keyboard_refuted"
   ],
   "note": "REFUTED: a window that was not shown yet is not closed by close with GTK (C138_hidden_refuted), a move with = to an object without window is undefined on Windows only (C138_assign_refuted), F21 to F24 are unknown on macOS (C138_keyboard_refuted). Proved for all histories of C56 that both toolkits allow (C138_same_partial); all that is allowed with one of the others is allowed on macOS (C138_macos_partial), and all that is allowed with GTK is allowed everywhere, if nothing is moved with = (C138_gtk_partial)."
  },
  {
   "property": "C139",
   "status": "partial",
   "theorems": [
    "C139_accepts_refuted",
    "C139_defined_refuted",
    "C139_reported_refuted",
    "C139_accepted_partial",
    "C139_numerals_partial",
    "C139_numerals_exact",
    "C139_nothing_else_partial",
    "C139_fraction_partial"
   ],
   "note": "REFUTED: 1-2.5 and 1. are taken (C139_accepts_refuted), a character above 255 is undefined behaviour (C139_defined_refuted), and a wrong character in the fraction is reported as a wrong number of places (C139_reported_refuted). Proved for every text: what a taken text looks like (C139_accepted_partial), all that can happen (C139_nothing_else_partial), that proper texts are taken exactly if the integral part, with its leading zeros, fits a long long, and are undefined behaviour otherwise (C139_numerals_partial, C139_numerals_exact), and that a fraction with anything but digits is refused (C139_fraction_partial). Strings with surrogate pairs are left out; they are always refused, as malformed (C140_pairs_partial)."
  },
  {
   "property": "C140",
   "status": "partial",
   "theorems": [
    "C140_format_integers",
    "C140_format_floats",
    "C140_parse_integers",
    "C140_floats_refuted",
    "C140_floats_partial",
    "C140_pairs_partial",
    "C140_bools_refuted",
    "C140_bools_partial",
    "C140_format_bools_partial",
    "C140_format_bools_refuted"
   ],
   "note": "Integers are written and read the same (C140_format_integers, C140_parse_integers), floating-point numbers are written the same (C140_format_floats), each without exceptions. REFUTED for floating-point numbers read and truth values: a supplementary character in UTF-16 gives another error (C140_floats_refuted), a character of C01 is refused in all but u8strings when read (C140_bools_refuted) and in u8strings when written (C140_format_bools_refuted). All other truth values are written with the characters of the format (C140_format_bools_partial). All other texts are read the same (C140_floats_partial, C140_bools_partial), and every UTF-16 text with a supplementary character is refused as malformed (C140_pairs_partial)."
  },
  {
   "property": "C141",
   "status": "partial",
   "theorems": [
    "C141_rounded_refuted",
    "C141_cut_partial",
    "C141_exactly_cut_partial",
    "C141_negative_partial"
   ],
   "note": "REFUTED: 0.875 with up to one place is shown as 0.8 (C141_rounded_refuted). Proved in every radix, odd ones included: the places behind the limit are dropped, up to 2^-(prec-1) (C141_cut_partial), and exactly so where the digits are exact, in which case a value with few enough places is shown as it is (C141_exactly_cut_partial). A negative value that is not integral is made one less before (C141_negative_partial, see C25)."
  },
  {
   "property": "C142",
   "status": "partial",
   "theorems": [
    "C142_same_reading",
    "C142_nothing_lost_refuted",
    "C142_damage_partial",
    "C142_cut_short",
    "C142_reaches_the_end",
    "C142_salvage_partial"
   ],
   "note": "REFUTED: the character after a torn one is lost, because the unit that shows the damage has been taken from the resource already; E2 82 41 42 gives an exception and then B (C142_nothing_lost_refuted). Proved for every damaged text: units that start nothing cost one exception and no character, a torn character costs the next character and nothing else (C142_damage_partial, C142_salvage_partial); a text cut short in its last character gives read_past_end once, then the end (C142_cut_short); with arbitrary bytes the end is always reached (C142_reaches_the_end). The model that keeps the stream after an exception agrees with the one used elsewhere (C142_same_reading). Texts with carriage returns are covered by C142_reaches_the_end only."
  },
  {
   "property": "C143",
   "status": "partial",
   "theorems": [
    "C143_any_buffer_refuted",
    "C143_memory_partial",
    "C143_file_partial"
   ],
   "note": "REFUTED: through a buffer smaller than a code unit the text AB is read as A and U+4200 (C143_any_buffer_refuted, see C33). Proved for every buffer that holds a code unit, or none, for arbitrary bytes and requests, exceptions included, also for a program that reads on after exceptions: two containers on two machines (C143_memory_partial), a container and a file (C143_file_partial; the operating system must not fail and on Unix-like systems must transfer all it is asked for, C49)."
  },
  {
   "property": "C144",
   "status": "partial",
   "theorems": [
    "C144_wide_elements_refuted",
    "C144_memory_partial",
    "C144_file_partial",
    "C144_places_of_characters",
    "C144_again_partial"
   ],
   "note": "REFUTED: a container of two-byte characters gives its position in bytes but takes one in characters, so a program that returns to the place after A in ABCD reads C (C144_wide_elements_refuted, see C61). Proved for containers of bytes (C144_memory_partial) and for files (C144_file_partial; the operating system must not fail and on Unix-like systems must transfer all it is asked for, C49), with every buffer that holds a code unit, or none: every program of reads, notes and returns finds what a new stream finds in the bytes from the place on. C144_places_of_characters says what that is in a well-formed text, C144_again_partial that what was read after a note is read again after a return."
  },
  {
   "property": "C145",
   "status": "partial",
   "theorems": [
    "C145_other_order_refuted",
    "C145_memory_partial",
    "C145_file_partial"
   ],
   "note": "REFUTED: a value in the byte order the machine does not have comes back with its bytes reversed (C145_other_order_refuted, see C40). Proved for values in the byte order of the machine and text in any encoding form and byte order: in memory (C145_memory_partial) and in files, also from one platform to another (C145_file_partial; the file must not have been longer, the operating system must oblige). The buffer for reading must be absent or hold each value and each code unit."
  },
  {
   "property": "C146",
   "status": "partial",
   "theorems": [
    "C146_same_partial",
    "C146_library_refuted",
    "C146_failing_refuted",
    "C146_wide_refuted"
   ],
   "note": "REFUTED for programs linked with the compiled library (C146_library_refuted, see C79), if the standard input fails (C146_failing_refuted) and for strings of wchar_t, which is another type on each platform (C146_wide_refuted, see C07). Proved for header-only programs with other strings (C146_same_partial): the outcome is the same, exceptions and undefined behaviour included, and the program comes to an end. Strings below 2^32 code units; an input buffer of two bytes or more on Windows; the user types no carriage returns unless lines end alike."
  },
  {
   "property": "C147",
   "status": "partial",
   "theorems": [
    "C147_followed_refuted",
    "C147_followed_partial",
    "C147_in_order_partial",
    "C147_old_bytes"
   ],
   "note": "REFUTED for requests longer than the buffer of the reader (C147_followed_refuted, as C33 and C64). Proved for all other histories when the system does all it is asked to do (C147_followed_partial, C147_in_order_partial); writes and requests fit in one transfer. C148_exact: what a writer and a reader of any requests and seeks get, in every interleaving; C147_old_bytes: what is overwritten while it is in the reader's buffer is read as it was, for all contents."
  },
  {
   "property": "C148",
   "status": "partial",
   "theorems": [
    "C148_appended_refuted",
    "C148_turns_partial",
    "C148_appended_partial",
    "C148_exact",
    "C148_overwritten"
   ],
   "note": "REFUTED for two objects that append without taking turns: what one wrote is overwritten by the other (C148_appended_refuted). Proved in turns (C148_turns_partial, C148_appended_partial) when the system does all it is asked to do and each turn uses the file as in C64. C148_exact: what two objects that are each used in one direction do to one file, in every interleaving of calls of any kind and size (HandsSpec.v); C148_overwritten: what is left of two texts appended from the same end, for all texts and buffers."
  },
  {
   "property": "C149",
   "status": "partial",
   "theorems": [
    "C149_never_more_refuted",
    "C149_writes_partial",
    "C149_reads_partial"
   ],
   "note": "REFUTED: C149_never_more_refuted: reading 4 bytes of a file of 3 takes 3 calls with a buffer of 4 and 2 without one. Proved: the bounds for output whatever the system does at each call, with transfers that fit in one call (C149_writes_partial), and for input if the system does all it is asked to do and the reads fit in the buffer (C149_reads_partial). Seeks of the system are not counted."
  },
  {
   "property": "C150",
   "status": "partial",
   "theorems": [
    "C150_same_refuted",
    "C150_large_blocks_refuted",
    "C150_copied_partial"
   ],
   "note": "REFUTED: C150_same_refuted: a file that was longer before keeps its end, nothing cuts it off; C150_large_blocks_refuted: with blocks longer than the buffer of the file read, bytes come twice. Proved (C150_copied_partial): for all other sizes and buffers, if the system does all it is asked to do, the program ends, says so, and the new file has the bytes of the old one in the place of its first bytes."
  },
  {
   "property": "C151",
   "status": "partial",
   "theorems": [
    "C151_buffered_refuted",
    "C151_short_read_refuted",
    "C151_known_partial"
   ],
   "note": "REFUTED: C151_buffered_refuted: with a buffer on the file written, nothing arrives on the disk and the program says that everything was copied; C151_short_read_refuted: one short read on a Unix-like system, and the program says that all is well with wrong bytes in the copy. Proved (C151_known_partial): without a buffer on the file written, for every script of the system (short transfers only on Windows), the program ends, is right when it says that everything was copied, and otherwise the copy has the first bytes of the file."
  },
  {
   "property": "C152",
   "status": "partial",
   "theorems": [
    "C152_buffered_refuted",
    "C152_short_read_refuted",
    "C152_waited_out_partial"
   ],
   "note": "REFUTED: C152_buffered_refuted: with a buffer on the file written, a refused write is never reported, so nothing can be tried again; C152_short_read_refuted: one short read on a Unix-like system, and the copy has wrong bytes. Proved (C152_waited_out_partial): without a buffer on the file written, for every finite script of the system (short transfers only on Windows), the program ends within as many rounds as there are bytes and failures, and the new file has the bytes of the old one in the place of its first bytes."
  },
  {
   "property": "C153",
   "status": "partial",
   "theorems": [
    "C153_minimum_refuted",
    "C153_integers_partial",
    "C153_written_partial",
    "C153_decimal_refuted",
    "C153_large_refuted",
    "C153_whole_partial",
    "C153_fractions_partial",
    "C153_near_partial"
   ],
   "note": "REFUTED: C153_minimum_refuted: -128 is read as a signed char but cannot be shown; C153_decimal_refuted: 1.2 read as a float is shown as 1.2000000476837158203125; C153_large_refuted: 9223372036854775807 is read as a double, and showing it is undefined behaviour. Proved: C153_integers_partial (integers of every type in every format, except minima, are shown as typed) and C153_written_partial (leading zeros and small letters give the same integer in the normal form); C153_whole_partial (whole numbers that are values of the floating-point type); C153_fractions_partial (fractions in radix 2, 4, 8, 16, 32 that the type can hold); C153_near_partial (in every even radix the number shown is within (2p+33)2^-p(v+1) of the one typed, v not negative and below 2^62). Missing: negative fractions (C25, C59)."
  },
  {
   "property": "C154",
   "status": "partial",
   "theorems": [
    "C154_read_refuted",
    "C154_shown_refuted",
    "C154_shown_partial",
    "C154_read_whole",
    "C154_read_longer",
    "C154_read_partial",
    "C154_read_places_partial",
    "C154_shown_signs_partial",
    "C154_read_negative_refuted"
   ],
   "note": "REFUTED: C154_read_refuted: 0.099999999 is read as a larger float than 0.1; C154_shown_refuted: -2 is shown as -2, -1.5 as -2.5. Proved: C154_shown_partial and C154_shown_signs_partial (in every even radix, or in every radix with a limit of places, all values of either sign are shown in their order, except exactly the pairs of a whole number below zero and a value less than one above it, which are shown the wrong way round); C154_read_whole (whole numbers of either sign are read in their order); C154_read_longer (more digits never give a smaller number); C154_read_partial and C154_read_places_partial (numbers that are apart by more than (2p+31)2^-p(v+1), such as decimal amounts with two places below 3*10^11 as doubles, are read in their order). C154_read_negative_refuted: numbers below zero with the same whole part, and apart, are all read the wrong way round. Missing: numbers closer together."
  },
  {
   "property": "C155",
   "status": "partial",
   "theorems": [
    "C155_different_refuted",
    "C155_integers_partial",
    "C155_exact_partial",
    "C155_apart_partial",
    "C155_whole",
    "C155_exact_signs_partial",
    "C155_apart_signs_partial"
   ],
   "note": "REFUTED: C155_different_refuted: two neighbouring floats near 0.875 are both shown as 0.875000095367431640625. Proved: C155_integers_partial (integers, except the minima, which are not shown); C155_exact_partial and C155_exact_signs_partial (all values of either sign, in radix 2, 4, 8, 16 and 32, and in every even radix if they have few fractional bits); C155_apart_partial and C155_apart_signs_partial (values of either sign that are apart by more than 2^-(p-2), in every even radix); C155_whole (a whole number and one that is not are never shown the same). Missing: the rest, which is false."
  },
  {
   "property": "C156",
   "status": "proved",
   "theorems": [
    "C156_log",
    "C156_runs"
   ],
   "note": "C156_log: after any number of runs the log has the bytes it had, followed by an initial part of what each run wrote, which is complete if the run was not killed and otherwise misses nothing flushed and at most the capacity of the buffer of what was written; C156_runs: such runs exist from every disk, ended or killed at every call. The operating system does what it is asked to (failures: C50, C108); only one program writes the log at a time (C148)."
  },
  {
   "property": "C157",
   "status": "proved",
   "theorems": [
    "C157_start",
    "C157_resumed",
    "C157_ends"
   ],
   "note": "C157_start: what one start of the program leaves, killed or not; C157_resumed: any number of starts; C157_ends: a start that is not killed comes to its end, and a kill is defined at every step. Blocks are not larger than the buffer of the source (larger ones: C64). The operating system does what it is asked to (failures: C151, C152)."
  },
  {
   "property": "C158",
   "status": "proved",
   "theorems": [
    "C158_pieces",
    "C158_detour",
    "C158_detour_exception"
   ],
   "note": "C158_pieces and C158_detour for all code unit sequences. C158_detour_exception: the exception is the same, too, unless the target is UTF-8 (an example shows that it may differ then)."
  },
  {
   "property": "C159",
   "status": "partial",
   "theorems": [
    "C159_classic",
    "C159_turkish_refuted",
    "C159_exact_partial",
    "C159_floats_partial",
    "C159_decimal_partial",
    "C159_ordinary_partial"
   ],
   "note": "REFUTED: in a Turkish locale with the character set ISO 8859-9 the digit I of radix 36 is refused, and the letter 0xDD is undefined behaviour (C159_turkish_refuted). Proved: the exact condition on two locales (C159_exact_partial), that no locale matters up to radix 10 (C159_decimal_partial), and that all locales with the usual small letters agree with the \"C\" locale (C159_ordinary_partial, C159_floats_partial), which all other theorems are about (C159_classic)."
  },
  {
   "property": "C160",
   "status": "partial",
   "theorems": [
    "C160_order_partial",
    "C160_utf16_exact",
    "C160_utf16_refuted",
    "C160_lists_partial"
   ],
   "note": "REFUTED for UTF-16: U+FF21 sorts before U+1F600 in UTF-8 and behind it in UTF-16. Proved for all other types, pairs and lists; for UTF-16 exactly: U+E000 to U+FFFF sort behind all other code points, so texts without them, or without supplementary code points, keep their order."
  },
  {
   "property": "C161",
   "status": "proved",
   "theorems": [
    "C161_found",
    "C161_places",
    "C161_pieces"
   ],
   "note": "C161_found and C161_places for every occurrence, in both directions, with the first one (the result of find); C161_pieces for separators of one unit. Texts that can be converted: see C13. An empty text is also found within characters (example beside the theorem)."
  },
  {
   "property": "C162",
   "status": "proved",
   "theorems": [
    "C162_turns",
    "C162_overwritten"
   ],
   "note": "C162_turns: any number of writers with any buffers that take turns in any order; C162_overwritten: exactly what is left when two of them went to the end before either had written, for all contents, texts and buffers. Whole elements; sizes are representable."
  },
  {
   "property": "C163",
   "status": "proved",
   "theorems": [
    "C163_passed_on"
   ],
   "note": "C163_passed_on, for containers of bytes, with every CR written in one turn with its LF, entries the stream can encode (C01) and pieces that can be stored and are not the least value of a signed type (C17). Sizes below 2^62."
  },
  {
   "property": "C164",
   "status": "partial",
   "theorems": [
    "C164_refuted",
    "C164_character_first_partial"
   ],
   "note": "REFUTED: lines, words, numbers and the rest ask for the end first, and that does not flush: an empty line is read although a line has been written. Proved if in every turn a single character is read first (C164_character_first_partial)."
  },
  {
   "property": "C165",
   "status": "partial",
   "theorems": [
    "C165_followed_partial",
    "C165_lines_partial",
    "C165_line_refuted"
   ],
   "note": "REFUTED: a line of which only a part has been written is taken for a line, so that one line is read as two. Proved: the pieces obtained are exactly those of what was written and not read, across all turns (C165_followed_partial), so that lines written whole come out as they went in and are the lines of the file (C165_lines_partial). The system does all it is asked to do; no entry is larger than one transfer."
  },
  {
   "property": "C166",
   "status": "partial",
   "theorems": [
    "C166_pieces_partial",
    "C166_ascii_partial",
    "C166_unbuffered_partial",
    "C166_refuted"
   ],
   "note": "REFUTED: a character of two units in UTF-16, in the byte order that is not that of the machine, is written in two pieces; a try between them takes the first one and the character is lost. Proved: the claim in full for all texts without carriage returns written by character or as strings in the form of the stream, but for such characters (C166_pieces_partial), for ASCII text in UTF-8 without carriage returns whatever entries are made (C166_ascii_partial), and for an output resource without a buffer, where no flush is needed and line ends may be CR LF (C166_unbuffered_partial)."
  },
  {
   "property": "C167",
   "status": "proved",
   "theorems": [
    "C167_values_passed_on"
   ],
   "note": "For all programs of writes, flushes and tries; the streams have the byte order of the machine (the other order is the subject of C40)."
  },
  {
   "property": "C168",
   "status": "proved",
   "theorems": [
    "C168_values_through_a_file"
   ],
   "note": "For all programs of writes, flushes and tries, on both platforms; what happens when the operating system writes less or fails is the subject of C50 and C64."
  },
  {
   "property": "C169",
   "status": "partial",
   "theorems": [
    "C169_pieces_partial",
    "C169_ascii_partial",
    "C169_unbuffered_partial",
    "C169_refuted"
   ],
   "note": "REFUTED: a character of two units in UTF-16, in the byte order that is not that of the machine, is written in two pieces; between them the file holds half a character, a try takes it and the character is lost. Proved, for an operating system that does all it is asked to do: the claim in full for all texts without carriage returns written by character or as strings in the form of the stream, but for such characters (C169_pieces_partial), and for ASCII text in UTF-8 without carriage returns whatever entries are made (C169_ascii_partial); without an output buffer it holds for every text, in all encodings and with both kinds of line ends, and needs no flush (C169_unbuffered_partial)."
  },
  {
   "property": "C170",
   "status": "partial",
   "theorems": [
    "C170_container_partial",
    "C170_file_partial",
    "C170_palindromes_partial",
    "C170_file_palindromes_partial",
    "C170_refuted"
   ],
   "note": "REFUTED: every value read has its bytes in the opposite order, because they are inverted twice. All the rest is proved: the values are in the container (C170_container_partial) or file (C170_file_partial) whole and in the byte order of the streams, and what is read is exactly what C167 says for values with their bytes reversed; hence the claim holds for values that are the same in both directions (C170_palindromes_partial, C170_file_palindromes_partial)."
  },
  {
   "property": "C171",
   "status": "partial",
   "theorems": [
    "C171_lines_partial",
    "C171_empty_first_partial",
    "C171_refuted"
   ],
   "note": "REFUTED: what a killed program left of a line stays, and the first line of the next program is joined to it (C171_refuted). Proved for all lines that are not the first of their run, and for the first ones if the run before came to its end (C171_lines_partial); hence for all lines of programs that begin with an empty line (C171_empty_first_partial). The operating system does what it is asked to; one program writes at a time."
  },
  {
   "property": "C172",
   "status": "partial",
   "theorems": [
    "C172_saved_partial",
    "C172_longest_partial",
    "C172_runs",
    "C172_refuted"
   ],
   "note": "REFUTED: no function of the class shortens a file, and what is longer of the old content stays (C172_refuted, on both platforms). What is there, exactly, after any number of runs, killed or not: an initial part of what each wrote lies over what was there, all of it if the run was not killed, and nothing flushed is missing (C172_saved_partial); hence the claim holds if nothing that was there before was longer (C172_longest_partial). C172_runs: such runs exist from every disk. The operating system does what it is asked to; one program writes at a time."
  },
  {
   "property": "C173",
   "status": "partial",
   "theorems": [
    "C173_ascii_partial",
    "C173_not_killed_partial",
    "C173_refuted"
   ],
   "note": "REFUTED: a killed program may leave a part of a character, and whoever reads lines gets an exception there (C173_refuted, on both platforms; C142 says what is found behind it). Proved for lines of ASCII characters without CR, with the exception of C171, for readers with strings of every type and any buffer (C173_ascii_partial), and for all characters and encodings if no program was killed: then all lines are read, in order (C173_not_killed_partial). The operating system does what it is asked to; one program writes at a time."
  },
  {
   "property": "C174",
   "status": "partial",
   "theorems": [
    "C174_mended_partial",
    "C174_found_partial",
    "C174_refuted"
   ],
   "note": "REFUTED for programs that append: what a killed program left of a record moves all later ones (C174_refuted, on both platforms). Proved for programs that set the position to the end, ask for it and go back to the end of the last whole record before they write (C174_found_partial); exactly: the file holds the whole records that were there, those of an initial part of what each run wrote, and less than a record behind them (C174_mended_partial). The operating system does what it is asked to; one program writes at a time."
  }
 ]
}