{
 "claims": [
  {
   "property": "C01",
   "status": "proved",
   "theorems": [
    "C01_from_hms_components",
    "C01_from_hmsf_components"
   ],
   "note": "All ints; the double computation of milliseconds() is shown exact."
  },
  {
   "property": "C02",
   "status": "partial",
   "theorems": [
    "C02_same_rate_partial",
    "C02_products_fit",
    "C02_no_rate",
    "C02_refuted",
    "C02_as_is"
   ],
   "note": "Holds whenever frames*num*den fits an int (always for num <= 46340, C02_products_fit). Finding: at 60000/1001 comparing two Times of one second overflows int (C02_refuted). C02_as_is: in all cases the comparison is right or undefined, and undefined just when the seconds are equal and a product does not fit."
  },
  {
   "property": "C03",
   "status": "partial",
   "theorems": [
    "C03_different_rates_refuted",
    "C03_different_rates_eq_refuted",
    "C03_different_rates_partial",
    "C03_as_is"
   ],
   "note": "Finding: the cross products are swapped, so comparison between different rates is wrong within one second (two _refuted theorems). Proved when whole seconds differ or the rates are equal as fractions. C03_as_is says what the order is between any two rates: the fractions of a second are compared upside down."
  },
  {
   "property": "C04",
   "status": "proved",
   "theorems": [
    "C04_comparison_errors",
    "C04_comparison_overflow"
   ],
   "note": "Complete classification: throws, overflows, otherwise returns."
  },
  {
   "property": "C05",
   "status": "proved",
   "theorems": [
    "C05_strict_weak_order",
    "C05_trichotomy",
    "C05_gt_and_ne"
   ],
   "note": "On Times with positive denominators wherever the comparison returns."
  },
  {
   "property": "C06",
   "status": "proved",
   "theorems": [
    "C06_frames_at_nearest",
    "C06_nearest_unique",
    "C06_frames_at_errors"
   ],
   "note": "Nearest integer with ties to even for every dividend below 2^52; uniqueness of that integer proved too."
  },
  {
   "property": "C07",
   "status": "proved",
   "theorems": [
    "C07_frame_ms_round_trip"
   ],
   "note": "All rates 1..1000."
  },
  {
   "property": "C08",
   "status": "proved",
   "theorems": [
    "C08_from_frames",
    "C08_from_frames_errors"
   ],
   "note": "All outcomes of from_frames."
  },
  {
   "property": "C09",
   "status": "partial",
   "theorems": [
    "C09_add_exact_refuted",
    "C09_add_partial",
    "C09_add_needs_rates"
   ],
   "note": "Finding: add loses a frame (1+6 frames at 25 fps gives 6). Proved: the result is the floor of the millisecond sum at the finer rate, or one frame less when the sum is exactly on a frame."
  },
  {
   "property": "C10",
   "status": "partial",
   "theorems": [
    "C10_scale_refuted",
    "C10_frames_at_refuted",
    "C10_scale_partial",
    "C10_frames_at_partial",
    "C10_frames_at_as_is",
    "C10_scale_errors"
   ],
   "note": "Finding: scale and frames_at can return a frame count equal to the rate. Proved: never above it, and the scaled instant is right within half a frame plus the stated error. C10_frames_at_as_is says exactly when the frame count of frames_at is the rate: in the last half frame."
  },
  {
   "property": "C11",
   "status": "proved",
   "theorems": [
    "C11_collect_conserves",
    "C11_sort_unique",
    "C11_sort_independent"
   ],
   "note": "For every sort that meets the std::stable_sort contract (Spec/SortSpec.v); insertion_sort is shown to meet it and the sorted list is unique."
  },
  {
   "property": "C12",
   "status": "proved",
   "theorems": [
    "C12_one_grouping",
    "C12_lines_by_place",
    "C12_collect_groups",
    "C12_nonempty",
    "C12_ordered"
   ],
   "note": "C12_one_grouping: the conditions leave only one result."
  },
  {
   "property": "C13",
   "status": "proved",
   "theorems": [
    "C13_mixed_rates_throw"
   ],
   "note": "Under the hypothesis that no comparison overflows int."
  },
  {
   "property": "C14",
   "status": "partial",
   "theorems": [
    "C14_merged_partial",
    "C14_merged_refuted"
   ],
   "note": "Finding: pieces 0-1, 0-2, 0-1 give three subtitles. Proved when pieces that start together also end and fade together. What is collected from any input is given exactly by C12_collect_groups."
  },
  {
   "property": "C15",
   "status": "proved",
   "theorems": [
    "C15_iso6937_round_trip",
    "C15_iso6937_substitutes"
   ],
   "note": "Representable is the glyph repertoire of ISO 6937 (Spec/Iso6937Spec.v with Unicode compositions), without the characters the library's table lacks (listed there)."
  },
  {
   "property": "C16",
   "status": "partial",
   "theorems": [
    "C16_no_control_codes_partial",
    "C16_no_control_codes_fresh_partial",
    "C16_no_control_codes_refuted",
    "C16_as_is",
    "C16_only_strays"
   ],
   "note": "Finding: after a stray byte is decoded, U+0000 encodes to that byte, which may be a control code. Proved for text without U+0000 in any history, and for all text in a fresh process. C16_as_is gives the bytes for any text in any history: U+0000 is written as the first byte without meaning (or pair) that was decoded before; C16_only_strays: control codes come from nowhere else."
  },
  {
   "property": "C17",
   "status": "proved",
   "theorems": [
    "C17_decode_any_history",
    "C17_encode_any_history",
    "C17_nul_is_affected"
   ],
   "note": "U+0000 is the one character whose encoding depends on history (C17_nul_is_affected)."
  },
  {
   "property": "C18",
   "status": "partial",
   "theorems": [
    "C18_decode_safe_partial",
    "C18_decode_safe_refuted"
   ],
   "note": "Finding: the unassigned accent bytes 0xC9 and 0xCC dereference a null pointer. Proved: defined exactly when they are not used."
  },
  {
   "property": "C19",
   "status": "proved",
   "theorems": [
    "C19_encode_append",
    "C19_encode_written",
    "C19_encode_length",
    "C19_encode_dropped"
   ],
   "note": ""
  },
  {
   "property": "C20",
   "status": "partial",
   "theorems": [
    "C20_languages",
    "C20_language_descriptions",
    "C20_display_standards",
    "C20_timecode_statuses",
    "C20_cumulative_statuses",
    "C20_justifications",
    "C20_comments",
    "C20_language_groups_partial",
    "C20_language_group_descriptions_partial",
    "C20_language_groups_meant",
    "C20_language_groups_refuted"
   ],
   "note": "Finding: the UTF8 language group has no code and an empty description. All other rows proved."
  },
  {
   "property": "C21",
   "status": "proved",
   "theorems": [
    "C21_unknown_codes",
    "C21_unknown_language_groups"
   ],
   "note": "For the other tables the same statement is part of reads_table in the C20 theorems."
  },
  {
   "property": "C22",
   "status": "partial",
   "theorems": [
    "C22_as_is",
    "C22_u8_is_utf8_refuted",
    "C22_utf8_description_refuted"
   ],
   "note": "Refuted: U8 is read as Latin/Hebrew. C22_as_is: no file is reported as UTF-8, and every U8 file is reported as Latin/Hebrew."
  },
  {
   "property": "C23",
   "status": "proved",
   "theorems": [
    "C23_written_file"
   ],
   "note": "For arguments in acceptable (Spec/StlWriteSpec.v): positive rates up to 255, valid text and times, placed lines; files below 2 GB."
  },
  {
   "property": "C24",
   "status": "proved",
   "theorems": [
    "C24_refused",
    "C24_strings_in_fields"
   ],
   "note": "The refusal is an equivalence for all arguments whatever; the field contents for acceptable arguments."
  },
  {
   "property": "C25",
   "status": "partial",
   "theorems": [
    "C25_counters_partial",
    "C25_longest_line_refuted",
    "C25_counters_as_is",
    "C25_revision_refuted",
    "C25_field_too_small"
   ],
   "note": "Finding: a number too long for its field loses its last digits (a 100-byte line is recorded as 10), and a negative revision number, which is not refused, is written as its minus sign and first digit (-12 as -1). C25_counters_as_is gives the four fields for all arguments."
  },
  {
   "property": "C26",
   "status": "partial",
   "theorems": [
    "C26_text_partial",
    "C26_last_mark_refuted"
   ],
   "note": "Finding: block number 255 is indistinguishable from the last-block mark (more than 256 blocks). C26_text_partial gives the number of every block, also of those."
  },
  {
   "property": "C27",
   "status": "partial",
   "theorems": [
    "C27_frames_partial",
    "C27_frame_refuted",
    "C27_frames_as_is"
   ],
   "note": "Finding: a time in the last half frame of a second gives a frame byte equal to the rate. C27_frames_as_is: exactly those times give it."
  },
  {
   "property": "C28",
   "status": "partial",
   "theorems": [
    "C28_collected_partial",
    "C28_subrip_refuted"
   ],
   "note": "Finding: the SubRip reader sets line without lines, which is undefined behaviour in the writer. Proved for pieces with usable positions, times and text, after any collect()."
  },
  {
   "property": "C29",
   "status": "proved",
   "theorems": [
    "C29_ok_or_stl_error",
    "C29_short_file",
    "C29_missing_blocks"
   ],
   "note": "The third case is the decoder's undefined behaviour of C18: an unassigned accent byte before a letter."
  },
  {
   "property": "C30",
   "status": "partial",
   "theorems": [
    "C30_rows_fit_partial",
    "C30_negative_row_refuted",
    "C30_as_is"
   ],
   "note": "Finding: rows can become negative (maximum rows 1, three rows from row 0). C30_as_is: in every file all rows move up by as many rows as the lowest is too low."
  },
  {
   "property": "C31",
   "status": "proved",
   "theorems": [
    "C31_comments_ignored"
   ],
   "note": "Equality of the whole outcome, errors included."
  },
  {
   "property": "C32",
   "status": "partial",
   "theorems": [
    "C32_round_trip_partial",
    "C32_exact_rows_partial",
    "C32_row_order_refuted"
   ],
   "note": "Findings: lines that do not go downwards, or share a row, are read on the wrong rows (C32_row_order_refuted); combining marks on their own join the next character (C29). Proved for lines that go downwards without such marks. What comes back otherwise is C34_as_is."
  },
  {
   "property": "C33",
   "status": "proved",
   "theorems": [
    "C33_times",
    "C33_times_with_text"
   ],
   "note": "Below 256 hours, the most the hours byte holds, and 100000 blocks, the most the header holds."
  },
  {
   "property": "C34",
   "status": "partial",
   "theorems": [
    "C34_long_text_partial",
    "C34_characters_partial",
    "C34_style_refuted",
    "C34_rows_refuted",
    "C34_accent_refuted",
    "C34_as_is",
    "C34_as_is_once"
   ],
   "note": "Findings: the style is forgotten at a block boundary, the rows begin again, and an accented character can be cut in two. Proved for single lines of plain text with one byte per character, and for the characters alone (not their rows and styles) of any subtitles where no block ends in the middle of one. C34_as_is says for all acceptable subtitles exactly what comes back: each block seen on its own, from the highest row down and without style."
  },
  {
   "property": "C35",
   "status": "partial",
   "theorems": [
    "C35_code_and_back",
    "C35_codes",
    "C35_other_rate_refuted",
    "C35_23976_refuted"
   ],
   "note": "Findings: 23.976 is read as 23 frames per second, and rates without a code are written as 25. The code and the rate it gives back are proved for all rates up to 255."
  },
  {
   "property": "C36",
   "status": "proved",
   "theorems": [
    "C36_plain_files"
   ],
   "note": "With an optional byte order mark, \\n or \\r\\n, and blank lines."
  },
  {
   "property": "C37",
   "status": "proved",
   "theorems": [
    "C37_times_accepted",
    "C37_times_refused",
    "C37_times_overflow",
    "C37_no_other_exception"
   ],
   "note": "All strings; the only undefined case is int overflow of the seconds."
  },
  {
   "property": "C38",
   "status": "proved",
   "theorems": [
    "C38_tags",
    "C38_read",
    "C38_cues_unique"
   ],
   "note": "Cues without SSA tags (C70) and right-to-left marks (C42). Colours are returned to when font tags close; the stack of open tags starts again on each line while the look continues."
  },
  {
   "property": "C39",
   "status": "partial",
   "theorems": [
    "C39_defined_partial",
    "C39_defined_refuted",
    "C39_hours_refuted",
    "C39_as_is"
   ],
   "note": "Findings: a closing font tag with none open reads the back of an empty vector; times beyond 2^31 seconds overflow. Exact condition in C71_undefined; proved defined for files with numbers of at most five digits and nested font tags. C39_as_is says exactly when."
  },
  {
   "property": "C40",
   "status": "partial",
   "theorems": [
    "C40_file_like_string_partial",
    "C40_file_like_string_refuted",
    "C40_as_is"
   ],
   "note": "Finding: lines of more than 254 bytes are split and NULs cut a line when reading a FILE. Proved equal otherwise, up to line ends in the context of an error. C40_as_is: any file is read like the text of its 255 byte buffers, each cut at its first NUL."
  },
  {
   "property": "C41",
   "status": "proved",
   "theorems": [
    "C41_error_place"
   ],
   "note": "SubripErrors; exceptions of SSA tags carry no place."
  },
  {
   "property": "C42",
   "status": "partial",
   "theorems": [
    "C42_marks_removed_partial",
    "C42_marks_removed_refuted",
    "C42_as_is"
   ],
   "note": "Finding: only text after the last tag of a line is cleaned. Proved for UTF-8 text without tags. C42_as_is: marks are only left directly in front of a tag."
  },
  {
   "property": "C43",
   "status": "proved",
   "theorems": [
    "C43_rendered_files"
   ],
   "note": "With an optional byte order mark, text after WEBVTT, \\n or \\r\\n. The text of cues has no LINE SEPARATORs; C75 says what those do."
  },
  {
   "property": "C44",
   "status": "proved",
   "theorems": [
    "C44_header"
   ],
   "note": ""
  },
  {
   "property": "C45",
   "status": "proved",
   "theorems": [
    "C45_undefined_is_overflow",
    "C45_exceptions",
    "C45_short_numbers"
   ],
   "note": "Undefined behaviour is int overflow of a time in a line with an arrow, and does not happen with numbers of at most five digits."
  },
  {
   "property": "C46",
   "status": "proved",
   "theorems": [
    "C46_text_field",
    "C46_plain_text"
   ],
   "note": ""
  },
  {
   "property": "C47",
   "status": "proved",
   "theorems": [
    "C47_looks",
    "C47_texts_are_read"
   ],
   "note": "Spec/SsaUseSpec.v: ssa_shown; what each tag does is Spec/SsaTagSpec.v: override."
  },
  {
   "property": "C48",
   "status": "partial",
   "theorems": [
    "C48_rows_partial",
    "C48_as_is",
    "C48_rows_refuted"
   ],
   "note": "Finding: in a\\\\nb (a double backslash) the second backslash and the n are counted as a line break although none is made. Proved, up to float rounding, for texts without that, and without alignment and position tags. C48_as_is: in all texts without such tags the rows are where they would be if those were line breaks."
  },
  {
   "property": "C49",
   "status": "proved",
   "theorems": [
    "C49_align_tag",
    "C49_no_tag",
    "C49_style",
    "C49_style_without"
   ],
   "note": ""
  },
  {
   "property": "C50",
   "status": "proved",
   "theorems": [
    "C50_colour_tag",
    "C50_style_colour",
    "C50_style_back_colour"
   ],
   "note": "With or without an alpha byte, in tags and styles; decimal colours in styles."
  },
  {
   "property": "C51",
   "status": "proved",
   "theorems": [
    "C51_times",
    "C51_all_times",
    "C51_bad_times"
   ],
   "note": ""
  },
  {
   "property": "C52",
   "status": "partial",
   "theorems": [
    "C52_start_time_partial",
    "C52_start_time_refuted",
    "C52_as_is"
   ],
   "note": "Finding: one character too many is cut off in front of the comma, so without a space the last digit of the start time is lost. Proved for lines with white space there. C52_as_is: without white space exactly the last digit is lost."
  },
  {
   "property": "C53",
   "status": "partial",
   "theorems": [
    "C53_line_numbers_partial",
    "C53_all_lines_partial",
    "C53_line_numbers_refuted",
    "C53_bar_at_end_refuted"
   ],
   "note": "Findings: the number of a line counts the bars since the previous piece of text, so third and later lines get number 1, and a bar at the end of a text leaks into the next subtitle. Proved for plain subtitles of at most two lines; C53_all_lines_partial gives the numbers for any number of lines."
  },
  {
   "property": "C54",
   "status": "partial",
   "theorems": [
    "C54_text_kept_partial",
    "C54_text_kept_refuted",
    "C54_as_is"
   ],
   "note": "Finding: the last line of the file is lost if it does not end in a newline. Proved for lines that do. C54_as_is: the unended last line is never seen."
  },
  {
   "property": "C55",
   "status": "proved",
   "theorems": [
    "C55_subrip",
    "C55_binary",
    "C55_text",
    "C55_text_refused",
    "C55_missing",
    "C55_null"
   ],
   "note": "The readers are the ones of the other properties. A .stl file of less than 11 bytes is read as empty, which is what it means if it means anything (C55_text)."
  },
  {
   "property": "C56",
   "status": "proved",
   "theorems": [
    "C56_tags"
   ],
   "note": "The tags of the two styles may overlap rather than nest."
  },
  {
   "property": "C57",
   "status": "proved",
   "theorems": [
    "C57_float_any_locale",
    "C57_int_any_locale",
    "C57_int_value",
    "C57_string_any_locale"
   ],
   "note": "Decimal separators that are one byte and not a digit, letter, sign or space."
  },
  {
   "property": "C58",
   "status": "partial",
   "theorems": [
    "C58_compose_partial",
    "C58_marks_unique",
    "C58_compose_refuted",
    "C58_compose_as_is"
   ],
   "note": "Finding: an empty argument is skipped and later arguments take its number. Proved for non-empty arguments; C58_compose_as_is says what happens in general."
  },
  {
   "property": "C59",
   "status": "partial",
   "theorems": [
    "C59_vertical_equality",
    "C59_vertical_symmetric",
    "C59_proportional_equivalence_partial",
    "C59_line_equivalence_partial",
    "C59_equal_is_same_place",
    "C59_vertical_reflexive_refuted",
    "C59_vertical_transitive_refuted",
    "C59_horizontal_equality",
    "C59_horizontal_symmetric",
    "C59_horizontal_transitive_refuted"
   ],
   "note": "Findings: VerticalPosition == is not reflexive when unset and not transitive when lines is set on some only; HorizontalPosition == is a tolerance, so not transitive."
  },
  {
   "property": "C60",
   "status": "proved",
   "theorems": [
    "C60_vertical_order",
    "C60_strict_weak",
    "C60_unspecified",
    "C60_undefined"
   ],
   "note": "Distances are compared after float rounding: exact within one reference, within 2^-22 between references. Line without lines is undefined behaviour (C60_undefined)."
  },
  {
   "property": "C61",
   "status": "proved",
   "theorems": [
    "C61_all_as_seconds"
   ],
   "note": ""
  },
  {
   "property": "C62",
   "status": "proved",
   "theorems": [
    "C62_any_rgb",
    "C62_any_rgba",
    "C62_no_rgb",
    "C62_no_rgba",
    "C62_rgb_hex",
    "C62_rgba_hex",
    "C62_short_rejected",
    "C62_no_digit_rejected"
   ],
   "note": ""
  },
  {
   "property": "C63",
   "status": "partial",
   "theorems": [
    "C63_given_size",
    "C63_points_to_proportion",
    "C63_proportion_to_points",
    "C63_round_trip_partial",
    "C63_round_trip_refuted"
   ],
   "note": "Finding: 7 points at height 1080 come back as 6. Proved: at most one point is lost."
  },
  {
   "property": "C64",
   "status": "proved",
   "theorems": [
    "C64_block_equality",
    "C64_line_equality",
    "C64_subtitle_equality",
    "C64_subtitle_equality_returns"
   ],
   "note": ""
  },
  {
   "property": "C65",
   "status": "proved",
   "theorems": [
    "C65_decode_standard",
    "C65_meaning_unique",
    "C65_decode_glyphs"
   ],
   "note": ""
  },
  {
   "property": "C66",
   "status": "partial",
   "theorems": [
    "C66_rows_kept_partial",
    "C66_as_is",
    "C66_row_refuted"
   ],
   "note": "Finding: rows 7 and 14 of 23 move up by one. All other rows 0..23 proved. C66_as_is: the row of every block is that of the highest line, or one less if that is 7 or 14."
  },
  {
   "property": "C67",
   "status": "proved",
   "theorems": [
    "C67_decode_is_utf8",
    "C67_encode_is_utf8",
    "C67_round_trip",
    "C67_invalid_left_out",
    "C67_decode_gives_characters",
    "C67_any_bytes"
   ],
   "note": ""
  },
  {
   "property": "C68",
   "status": "proved",
   "theorems": [
    "C68_reader_reads_the_file"
   ],
   "note": "Equivalence with the specification in Spec/StlFileSpec.v."
  },
  {
   "property": "C69",
   "status": "partial",
   "theorems": [
    "C69_subtitle_number_refuted",
    "C69_subtitle_number_as_is"
   ],
   "note": "Refuted: the number is always 0 (marked XXX in the source). C69_subtitle_number_as_is: in every file that is written every number is 0."
  },
  {
   "property": "C70",
   "status": "partial",
   "theorems": [
    "C70_ssa_tags_partial",
    "C70_ssa_tags_refuted",
    "C70_as_is"
   ],
   "note": "Finding: the tag does not end the piece, so earlier text on the line is restyled. Proved for tags in front of the text; C70_as_is: wherever tags are, they style the whole line."
  },
  {
   "property": "C71",
   "status": "proved",
   "theorems": [
    "C71_reads_the_file",
    "C71_exceptions",
    "C71_undefined"
   ],
   "note": ""
  },
  {
   "property": "C72",
   "status": "partial",
   "theorems": [
    "C72_standard_timing_partial",
    "C72_minutes_refuted",
    "C72_settings_refuted",
    "C72_as_is"
   ],
   "note": "Findings: mm:ss.ttt without hours is refused, and so are one, two or three (or more than four) cue settings. Proved for times with hours, spaces as separators, and none or four settings. C72_as_is: all others are refused with WebVTTError."
  },
  {
   "property": "C73",
   "status": "partial",
   "theorems": [
    "C73_as_is",
    "C73_file_like_string_partial",
    "C73_file_like_string_refuted"
   ],
   "note": "Finding: lines of more than 254 bytes are split and NULs cut a line when reading a FILE. Proved equal otherwise, up to line ends in the context of an error. C73_as_is: any file is read like the text of its 255 byte buffers, each cut at its first NUL."
  },
  {
   "property": "C74",
   "status": "proved",
   "theorems": [
    "C74_error_place"
   ],
   "note": ""
  },
  {
   "property": "C75",
   "status": "proved",
   "theorems": [
    "C75_reads_the_file",
    "C75_exceptions",
    "C75_undefined"
   ],
   "note": ""
  },
  {
   "property": "C76",
   "status": "proved",
   "theorems": [
    "C76_reads_the_file",
    "C76_exceptions",
    "C76_undefined",
    "C76_all_there_is"
   ],
   "note": "C76_undefined says exactly when reading is undefined (an int overflow) and C76_all_there_is that every file is read, refused or overflows."
  },
  {
   "property": "C77",
   "status": "partial",
   "theorems": [
    "C77_file_like_string_partial",
    "C77_file_like_string_refuted",
    "C77_as_is"
   ],
   "note": "Finding: lines of more than 254 bytes are split and NULs cut a line when reading a FILE (the rest of a long comment is refused). Proved equal otherwise. C77_as_is: any file is read like the text of its 255 byte buffers, each cut at its first NUL."
  },
  {
   "property": "C78",
   "status": "partial",
   "theorems": [
    "C78_safe_partial",
    "C78_safe_refuted",
    "C78_as_is"
   ],
   "note": "Finding: numbers that do not fit an int, or times that do not fit in int seconds, overflow. Proved for numbers of at most nine digits, five in dialogue lines; C78_as_is says exactly when."
  },
  {
   "property": "C79",
   "status": "partial",
   "theorems": [
    "C79_position_partial",
    "C79_position_refuted",
    "C79_as_is"
   ],
   "note": "Finding: the vertical margin of the style is added to the position. Proved for styles without one, up to rounding to floats. C79_as_is: with a margin the result is the sum, rounded."
  },
  {
   "property": "C80",
   "status": "partial",
   "theorems": [
    "C80_v4_alignment_partial",
    "C80_as_is",
    "C80_v4_alignment_refuted"
   ],
   "note": "Finding: the numbers are read as those of [V4+ Styles], so 5 to 11 are wrong. Proved for 1 to 3. C80_as_is: no other number is right."
  },
  {
   "property": "C81",
   "status": "proved",
   "theorems": [
    "C81_nearest_float",
    "C81_any_text",
    "C81_every_text"
   ],
   "note": ""
  },
  {
   "property": "C82",
   "status": "proved",
   "theorems": [
    "C82_text_stl_meaning"
   ],
   "note": "For a stream in good state, as made by the factory for files of 11 bytes or more."
  },
  {
   "property": "C83",
   "status": "proved",
   "theorems": [
    "C83_text_stl_exception",
    "C83_text_stl_undefined"
   ],
   "note": ""
  },
  {
   "property": "C84",
   "status": "partial",
   "theorems": [
    "C84_text_stl_safe_partial",
    "C84_text_stl_safe_refuted",
    "C84_as_is"
   ],
   "note": "Finding: times that do not fit in int seconds overflow. Proved for numbers of at most five digits. C84_as_is says exactly when."
  },
  {
   "property": "C85",
   "status": "proved",
   "theorems": [
    "C85_time_printed",
    "C85_time_read_back"
   ],
   "note": "Reading back is for times from zero on."
  },
  {
   "property": "C86",
   "status": "proved",
   "theorems": [
    "C86_dump",
    "C86_dump_fails"
   ],
   "note": "How a proportional position is printed is C89."
  },
  {
   "property": "C87",
   "status": "proved",
   "theorems": [
    "C87_header_back"
   ],
   "note": ""
  },
  {
   "property": "C88",
   "status": "proved",
   "theorems": [
    "C88_written_is_read"
   ],
   "note": ""
  },
  {
   "property": "C89",
   "status": "proved",
   "theorems": [
    "C89_float_printed"
   ],
   "note": ""
  },
  {
   "property": "C90",
   "status": "proved",
   "theorems": [
    "C90_effects",
    "C90_alignments"
   ],
   "note": ""
  },
  {
   "property": "C91",
   "status": "proved",
   "theorems": [
    "C91_white_space"
   ],
   "note": ""
  },
  {
   "property": "C92",
   "status": "partial",
   "theorems": [
    "C92_equality",
    "C92_integer",
    "C92_integer_fraction",
    "C92_undefined",
    "C92_fraction",
    "C92_max_second",
    "C92_max_first_partial",
    "C92_max_refuted",
    "C92_max_as_is"
   ],
   "note": "Finding: max() compares doubles, so of two fractions that differ by less than a double can hold it may give the smaller one (C92_max_refuted). Proved for numbers below 2^26. C92_max_as_is: what decides is the doubles nearest to the two fractions."
  },
  {
   "property": "C93",
   "status": "proved",
   "theorems": [
    "C93_metadata"
   ],
   "note": ""
  },
  {
   "property": "C94",
   "status": "proved",
   "theorems": [
    "C94_subrip",
    "C94_webvtt",
    "C94_others",
    "C94_fixed",
    "C94_assertions"
   ],
   "note": "__FILE__ is never empty; file and line of an assertion are not part of the model of the functions that assert."
  },
  {
   "property": "C95",
   "status": "proved",
   "theorems": [
    "C95_arguments",
    "C95_help",
    "C95_one_file",
    "C95_missing",
    "C95_unreadable",
    "C95_shows",
    "C95_fails"
   ],
   "note": "getopt_long and the file system are modelled from their documentation."
  },
  {
   "property": "C96",
   "status": "proved",
   "theorems": [
    "C96_warnings_written",
    "C96_warnings_exist",
    "C96_warnings_unique",
    "C96_no_stream",
    "C96_opening"
   ],
   "note": ""
  },
  {
   "property": "C97",
   "status": "partial",
   "theorems": [
    "C97_signed",
    "C97_unsigned_long",
    "C97_unsigned_long_long_partial",
    "C97_unsigned_long_long_wraps",
    "C97_unsigned_long_long_refuted",
    "C97_string"
   ],
   "note": "Finding: unsigned long long is printed as if it were signed, so values from 2^63 come out negative (C97_unsigned_long_long_refuted)."
  },
  {
   "property": "C98",
   "status": "partial",
   "theorems": [
    "C98_any_schedule_partial",
    "C98_all_finish",
    "C98_one_at_a_time",
    "C98_changes_are_writes",
    "C98_accesses_suffice",
    "C98_crash_writes",
    "C98_first_use_refuted",
    "C98_crash_refuted",
    "C98_lost_refuted",
    "C98_unreadable_refuted"
   ],
   "note": "Findings: the tables are made on first use without a lock, so the first conversions of a process race (and with every step atomic could still crash or lose characters), and a byte without meaning is entered into the table when it is read. Proved for readable text once the tables have been made."
  },
  {
   "property": "C99",
   "status": "partial",
   "theorems": [
    "C99_stopped_anywhere",
    "C99_part_of_written",
    "C99_part_of_any",
    "C99_throw_leaves_file",
    "C99_ends",
    "C99_complete",
    "C99_no_room_refuted",
    "C99_not_opened_refuted"
   ],
   "note": "Finding: nobody looks at the state of the output stream, so the writer returns as usual if the file cannot be opened or does not fit (C99_no_room_refuted, C99_not_opened_refuted). The rest is proved for up to 99999 blocks, the most the header holds."
  },
  {
   "property": "C100",
   "status": "proved",
   "theorems": [
    "C100_subrip",
    "C100_subrip_file",
    "C100_webvtt",
    "C100_webvtt_file",
    "C100_ssa",
    "C100_ssa_file",
    "C100_text_stl"
   ],
   "note": ""
  },
  {
   "property": "C101",
   "status": "partial",
   "theorems": [
    "C101_subrip",
    "C101_webvtt",
    "C101_ssa",
    "C101_text_stl",
    "C101_subrip_file_partial",
    "C101_webvtt_file_partial",
    "C101_ssa_file_partial",
    "C101_subrip_file_as_is",
    "C101_webvtt_file_as_is",
    "C101_ssa_file_as_is",
    "C101_file_all",
    "C101_file_refuted"
   ],
   "note": "Finding: in a file, a line of 254 bytes and a carriage return before the newline is split, and the rest is taken for an empty line (C101_file_refuted). Proved for all texts, and for files where the carriage return fits in the 255 bytes that are read at a time. The _as_is theorems and C101_file_all say exactly what any file with carriage returns is read as."
  },
  {
   "property": "C102",
   "status": "partial",
   "theorems": [
    "C102_subrip",
    "C102_webvtt",
    "C102_ssa_partial",
    "C102_ssa_refuted",
    "C102_ssa_blank",
    "C102_ssa_as_is",
    "C102_text_stl_refuted",
    "C102_text_stl_setting_refuted",
    "C102_text_stl_as_is",
    "C102_text_stl_lost",
    "C102_text_stl_throws"
   ],
   "note": "Findings: the text STL reader does not know the mark, so the first line is not understood; the SSA reader does not trim white space after it. Proved for SubRip, WebVTT, and SSA without white space at the beginning. The _as_is, _lost and _throws theorems say what happens to the first line otherwise."
  },
  {
   "property": "C103",
   "status": "partial",
   "theorems": [
    "C103_binary_stl",
    "C103_text_stl",
    "C103_subrip_partial",
    "C103_webvtt_partial",
    "C103_subrip_file_partial",
    "C103_webvtt_file_partial",
    "C103_ssa_partial",
    "C103_subrip_refuted",
    "C103_webvtt_refuted",
    "C103_ssa_refuted"
   ],
   "note": "Findings: SubRip and WebVTT milliseconds of many digits are read but overflow an int when collect() compares them (C103_subrip_refuted, C103_webvtt_refuted); an SSA dialogue whose text field comes before its start has no rate, so collect() throws (C103_ssa_refuted). Proved for all STL files, and for the others with short numbers and, for SSA, with the times before the text."
  },
  {
   "property": "C104",
   "status": "partial",
   "theorems": [
    "C104_subrip",
    "C104_webvtt",
    "C104_subrip_file",
    "C104_webvtt_file",
    "C104_binary_stl",
    "C104_text_stl",
    "C104_ssa_partial",
    "C104_ssa_as_is",
    "C104_ssa_file_as_is",
    "C104_ssa_refuted"
   ],
   "note": "Finding: an SSA dialogue whose text field comes before its start has no rate (C104_ssa_refuted). Proved for SSA files with the times before the text, and for all files in the other formats. C104_ssa_as_is: in any SSA file, times without the rate are those that were never set."
  },
  {
   "property": "C105",
   "status": "partial",
   "theorems": [
    "C105_binary_stl_partial",
    "C105_ssa_partial",
    "C105_subrip_refuted",
    "C105_webvtt_refuted",
    "C105_text_stl_refuted",
    "C105_no_rows_refuted",
    "C105_ssa_refuted"
   ],
   "note": "Finding: the SubRip, WebVTT and text STL readers never set the number of lines, so write_stl_binary has undefined behaviour for everything they give (C105_subrip_refuted, C105_webvtt_refuted and C105_text_stl_refuted, for all files). Also for a header that says 00 rows (C105_no_rows_refuted) and for an SSA position far off the screen (C105_ssa_refuted). Proved for other binary STL files, and for SSA with positions on the screen, times from zero on and text of Unicode characters."
  },
  {
   "property": "C106",
   "status": "partial",
   "theorems": [
    "C106_saved_again_partial",
    "C106_colour_refuted",
    "C106_as_is"
   ],
   "note": "Findings: colours are lost (C106_colour_refuted), rows 7 and 14 move (C66_row_refuted), subtitles that need more than one block are read back in pieces (C34). Proved for files of 23 rows without those, not at 23 frames a second (C35), for characters, rows, italic, underline and times. C106_as_is says exactly what is seen after loading and saving any file with rows, with rows and styles."
  },
  {
   "property": "C107",
   "status": "proved",
   "theorems": [
    "C107_subrip",
    "C107_webvtt",
    "C107_ssa",
    "C107_text_stl",
    "C107_subrip_file",
    "C107_webvtt_file",
    "C107_ssa_file"
   ],
   "note": ""
  },
  {
   "property": "C108",
   "status": "partial",
   "theorems": [
    "C108_subrip",
    "C108_ssa",
    "C108_text_stl",
    "C108_subrip_file",
    "C108_ssa_file",
    "C108_webvtt_lines",
    "C108_webvtt_partial",
    "C108_webvtt_refuted",
    "C108_binary_stl_refuted",
    "C108_binary_stl_lines_partial",
    "C108_binary_stl_lines_refuted"
   ],
   "note": "Findings: a WebVTT line that ends in U+2028 gives a piece without text (C108_webvtt_refuted), and so does a control code at the start of a row of a binary STL file (C108_binary_stl_refuted); a byte 10 in a binary STL text is kept as a line feed inside a piece (C108_binary_stl_lines_refuted). Proved for SubRip, SSA and text STL, and for WebVTT without U+2028; pieces of binary STL files without a byte 10 are on one line."
  },
  {
   "property": "C109",
   "status": "partial",
   "theorems": [
    "C109_subrip",
    "C109_webvtt",
    "C109_binary_stl",
    "C109_ssa_partial",
    "C109_text_stl_partial",
    "C109_ssa_refuted",
    "C109_text_stl_refuted",
    "C109_subrip_file_refuted"
   ],
   "note": "Findings: in SSA a backslash, and in text STL a caret, takes away the byte after it even if that is only half of a character (C109_ssa_refuted, C109_text_stl_refuted); in a file, a character can be split at the end of the 255-byte buffer (C109_subrip_file_refuted). Proved for all texts in SubRip and WebVTT, all binary STL files, and for SSA and text STL if an ASCII character follows each backslash or caret."
  },
  {
   "property": "C110",
   "status": "partial",
   "theorems": [
    "C110_webvtt",
    "C110_webvtt_file",
    "C110_text_stl",
    "C110_binary_stl",
    "C110_subrip_partial",
    "C110_subrip_as_is",
    "C110_ssa_partial",
    "C110_ssa_as_is",
    "C110_ssa_file_as_is",
    "C110_ssa_refuted",
    "C110_subrip_refuted"
   ],
   "note": "Findings: the colour of an SSA style without PrimaryColour is (255, 255, 255), as if parts went up to 255 (C110_ssa_refuted); SubRip rgba() numbers may be larger than 255 (C110_subrip_refuted). Proved for all WebVTT and STL files, for SubRip without rgba(), and for SSA if the formats of styles name PrimaryColour; C110_subrip_as_is says that every other colour of a SubRip file has a number over 255 that the file says; C110_ssa_as_is says that 255 in all parts is the only other colour in SSA."
  },
  {
   "property": "C111",
   "status": "proved",
   "theorems": [
    "C111_reordered",
    "C111_any_order"
   ],
   "note": ""
  },
  {
   "property": "C112",
   "status": "proved",
   "theorems": [
    "C112_parts"
   ],
   "note": ""
  },
  {
   "property": "C113",
   "status": "proved",
   "theorems": [
    "C113_subrip",
    "C113_webvtt",
    "C113_subrip_file",
    "C113_webvtt_file"
   ],
   "note": "Reading from a string."
  },
  {
   "property": "C114",
   "status": "proved",
   "theorems": [
    "C114_ssa",
    "C114_text_stl",
    "C114_subrip",
    "C114_webvtt"
   ],
   "note": "Reading from a string, and text STL from a stream. For SubRip and WebVTT the theorems say what can be read and what is given, and not which error a file that cannot be read gives."
  },
  {
   "property": "C115",
   "status": "partial",
   "theorems": [
    "C115_scale_one_partial",
    "C115_fine_refuted"
   ],
   "note": "Finding: frames that are shorter than a millisecond are rounded away (C115_fine_refuted). Proved for all whole rates up to 1000 frames a second; C115_fine_refuted is for every whole rate above that."
  },
  {
   "property": "C116",
   "status": "proved",
   "theorems": [
    "C116_scale",
    "C116_add"
   ],
   "note": ""
  },
  {
   "property": "C117",
   "status": "proved",
   "theorems": [
    "C117_add_commutes"
   ],
   "note": ""
  },
  {
   "property": "C118",
   "status": "partial",
   "theorems": [
    "C118_add_zero_refuted",
    "C118_add_zero_as_is",
    "C118_add_zero_rounds",
    "C118_add_zero_25_refuted"
   ],
   "note": "Finding: the sum goes through milliseconds and is rounded down, so adding zero can take a frame away (C118_add_zero_refuted: frame 2 at 24 frames a second becomes frame 1). C118_add_zero_as_is: never more than one, and never the other way. C118_add_zero_rounds: it is lost just when its milliseconds are rounded down; if they are whole it may be lost too (C118_add_zero_25_refuted: frame 4 of second 1 at 25 frames a second)."
  },
  {
   "property": "C119",
   "status": "partial",
   "theorems": [
    "C119_pieces_partial",
    "C119_ssa_partial",
    "C119_binary_stl_partial",
    "C119_marks_refuted",
    "C119_as_is",
    "C119_ssa_as_is"
   ],
   "note": "Finding: a combining mark after a letter (decomposed text) moves to the next letter (C119_marks_refuted). Proved without such marks, where no block ends within a character (C34_accent_refuted), for any number of blocks. Rows and styles are not in this property: see C32, C34 and C106. C119_as_is says exactly what is seen, with rows and styles, also with marks and cut characters."
  },
  {
   "property": "C120",
   "status": "partial",
   "theorems": [
    "C120_saved_twice_partial",
    "C120_empty_piece_refuted"
   ],
   "note": "Finding: where a line ends in an empty italic or underlined piece its code is read as the start of the next line, and the file changes once more (C120_empty_piece_refuted). Proved byte for byte for the files of C106 (23 rows, nothing on rows 7 and 14, a block for each subtitle) whose lines end in text."
  },
  {
   "property": "C121",
   "status": "partial",
   "theorems": [
    "C121_read",
    "C121_open",
    "C121_decode",
    "C121_encode_partial",
    "C121_write_partial",
    "C121_conversions",
    "C121_write_refuted"
   ],
   "note": "Finding: after a byte without a meaning has been read from any file, a NUL in a text is written as that byte (C121_write_refuted). Proved for all other texts and for all reading. C121_conversions: every theorem about (after h) holds after any session."
  },
  {
   "property": "C122",
   "status": "partial",
   "theorems": [
    "C122_subrip",
    "C122_subrip_file",
    "C122_subrip_moved",
    "C122_subrip_file_moved",
    "C122_webvtt",
    "C122_webvtt_file",
    "C122_webvtt_moved",
    "C122_webvtt_file_moved",
    "C122_ssa",
    "C122_ssa_moved",
    "C122_text_stl_partial",
    "C122_text_stl_moved_partial",
    "C122_text_stl_refuted",
    "C122_binary_stl_moved",
    "C122_binary_stl_partial",
    "C122_binary_stl_as_is",
    "C122_binary_stl_refuted"
   ],
   "note": "Proved for SubRip and WebVTT (cues ended by an empty line; strings and files) and SSA (Dialogue lines). Findings: in text STL a style that is not turned off, or a row that is left open by a bar at the end, is for the next subtitles too (C122_text_stl_refuted); in binary STL all subtitles move up because of one that is too low, so they move back when it is taken out (C122_binary_stl_refuted). Proved for text STL lines that set nothing, for binary STL files whose rows fit, and for changing places in all binary STL files; C122_binary_stl_as_is says what happens otherwise."
  },
  {
   "property": "C123",
   "status": "proved",
   "theorems": [
    "C123_subrip",
    "C123_webvtt",
    "C123_ssa",
    "C123_text_stl",
    "C123_binary_stl"
   ],
   "note": "Proved for SubRip, WebVTT, SSA, text STL and binary STL: whatever is before and after. For SSA the format names Start and End before Text, which is last, as the specification of the format asks."
  },
  {
   "property": "C124",
   "status": "partial",
   "theorems": [
    "C124_same_partial",
    "C124_as_is",
    "C124_refuted"
   ],
   "note": "Finding: the tags <b>, <i> and <u>, which are markup in both formats, are shown as text by the WebVTT reader (C124_refuted). Proved for text without tags, right-to-left marks and empty rows; C124_as_is says what the WebVTT reader gives for any text."
  },
  {
   "property": "C125",
   "status": "proved",
   "theorems": [
    "C125_unused",
    "C125_order",
    "C125_again"
   ],
   "note": "Reading from a string. The keys of the styles can be in any order."
  },
  {
   "property": "C126",
   "status": "partial",
   "theorems": [
    "C126_styles",
    "C126_events_partial",
    "C126_events_refuted"
   ],
   "note": "Reading from a string. Finding: a margin of a dialogue that comes before its style is overwritten by that of the style (C126_events_refuted). Proved for styles, and for dialogues with no margin before the style."
  },
  {
   "property": "C127",
   "status": "partial",
   "theorems": [
    "C127_again_partial",
    "C127_nan_refuted",
    "C127_binary_stl",
    "C127_text_stl",
    "C127_webvtt_partial",
    "C127_ssa_partial",
    "C127_subrip_partial",
    "C127_subrip_refuted"
   ],
   "note": "Finding: a piece on a numbered line that also has NaN as its proportion (in a SubRip file, \\pos(1,nan)) can be together with others on a line and comes apart when it is collected again (C127_subrip_refuted). Proved for all other pieces, and for files in every format; as in C103 the times have to be short enough to be compared."
  },
  {
   "property": "C128",
   "status": "proved",
   "theorems": [
    "C128_subrip",
    "C128_webvtt",
    "C128_ssa",
    "C128_ssa_timed",
    "C128_text_stl",
    "C128_binary_stl",
    "C128_subrip_file",
    "C128_webvtt_file",
    "C128_ssa_file"
   ],
   "note": "From strings, and from files a buffer at a time. In an SSA file a time that no field before the text gives is not set at all; if the start and the end come before the text, both are given (C128_ssa_timed)."
  },
  {
   "property": "C129",
   "status": "partial",
   "theorems": [
    "C129_subrip_partial",
    "C129_webvtt_partial",
    "C129_ssa_partial",
    "C129_text_stl_partial",
    "C129_binary_stl_partial",
    "C129_collect",
    "C129_subrip_refuted",
    "C129_webvtt_refuted",
    "C129_ssa_refuted",
    "C129_text_stl_refuted",
    "C129_binary_stl_refuted"
   ],
   "note": "Finding: every reader accepts a subtitle that ends before it starts (C129_*_refuted). Proved for files in which no line or block says so, and for what collect() makes of them."
  },
  {
   "property": "C130",
   "status": "proved",
   "theorems": [
    "C130_subrip",
    "C130_webvtt",
    "C130_ssa",
    "C130_subrip_file",
    "C130_webvtt_file",
    "C130_ssa_file",
    "C130_binary_stl"
   ],
   "note": "From strings, and from files with lines that fit the buffer. Errors of SubRip and WebVTT show the lines around them, so these may differ."
  },
  {
   "property": "C131",
   "status": "partial",
   "theorems": [
    "C131_refuted",
    "C131_as_is"
   ],
   "note": "Finding: the reader does not look at the extension block number, so user data is shown as text (C131_refuted, C131_as_is)."
  },
  {
   "property": "C132",
   "status": "partial",
   "theorems": [
    "C132_ascii_partial",
    "C132_refuted",
    "C132_as_is"
   ],
   "note": "Finding: bytes are counted, not characters (C132_refuted). Proved for ASCII text with fewer than 100 characters; otherwise the number is never too small while it fits."
  },
  {
   "property": "C133",
   "status": "partial",
   "theorems": [
    "C133_as_is",
    "C133_refuted"
   ],
   "note": "Finding: the field is always 00000000 (C133_refuted), so it is right exactly if the first subtitle starts at 0 (C133_as_is)."
  },
  {
   "property": "C134",
   "status": "partial",
   "theorems": [
    "C134_written_as_is",
    "C134_written_refuted",
    "C134_read_as_is",
    "C134_read_refuted"
   ],
   "note": "Finding: the header says code page 850 but texts are written and read as they are, in UTF-8 (C134_written_refuted, C134_read_refuted). They are right exactly if they are ASCII. The reader is considered for code page 850 only, and the nine fields of 32 bytes."
  }
 ]
}