# Notes for MANIFEST.json: id -> (forced status or None, note)
NOTES = {
"C01": (None, "All ints; the double computation of milliseconds() is shown exact."),
"C02": (None, "Holds whenever frames*num*den fits an int (always for num <= 46340, C02_products_fit). Finding: at 60000/1001 comparing two Times of one second overflows int (C02_refuted). C02_as_is: in all cases the comparison is right or undefined, and undefined just when the seconds are equal and a product does not fit."),
"C03": (None, "Finding: the cross products are swapped, so comparison between different rates is wrong within one second (two _refuted theorems). Proved when whole seconds differ or the rates are equal as fractions. C03_as_is says what the order is between any two rates: the fractions of a second are compared upside down."),
"C04": (None, "Complete classification: throws, overflows, otherwise returns."),
"C05": (None, "On Times with positive denominators wherever the comparison returns."),
"C06": (None, "Nearest integer with ties to even for every dividend below 2^52; uniqueness of that integer proved too."),
"C07": (None, "All rates 1..1000."),
"C08": (None, "All outcomes of from_frames."),
"C09": (None, "Finding: add loses a frame (1+6 frames at 25 fps gives 6). Proved: the result is the floor of the millisecond sum at the finer rate, or one frame less when the sum is exactly on a frame."),
"C10": (None, "Finding: scale and frames_at can return a frame count equal to the rate. Proved: never above it, and the scaled instant is right within half a frame plus the stated error. C10_frames_at_as_is says exactly when the frame count of frames_at is the rate: in the last half frame."),
"C61": (None, ""),
"C11": (None, "For every sort that meets the std::stable_sort contract (Spec/SortSpec.v); insertion_sort is shown to meet it and the sorted list is unique."),
"C12": (None, "C12_one_grouping: the conditions leave only one result."),
"C13": (None, "Under the hypothesis that no comparison overflows int."),
"C14": (None, "Finding: pieces 0-1, 0-2, 0-1 give three subtitles. Proved when pieces that start together also end and fade together. What is collected from any input is given exactly by C12_collect_groups."),
"C59": (None, "Findings: VerticalPosition == is not reflexive when unset and not transitive when lines is set on some only; HorizontalPosition == is a tolerance, so not transitive."),
"C60": (None, "Distances are compared after float rounding: exact within one reference, within 2^-22 between references. Line without lines is undefined behaviour (C60_undefined)."),
"C62": (None, ""),
"C63": (None, "Finding: 7 points at height 1080 come back as 6. Proved: at most one point is lost."),
"C64": (None, ""),
"C15": (None, "Representable is the glyph repertoire of ISO 6937 (Spec/Iso6937Spec.v with Unicode compositions), without the characters the library's table lacks (listed there)."),
"C16": (None, "Finding: after a stray byte is decoded, U+0000 encodes to that byte, which may be a control code. Proved for text without U+0000 in any history, and for all text in a fresh process. C16_as_is gives the bytes for any text in any history: U+0000 is written as the first byte without meaning (or pair) that was decoded before; C16_only_strays: control codes come from nowhere else."),
"C17": (None, "U+0000 is the one character whose encoding depends on history (C17_nul_is_affected)."),
"C18": (None, "Finding: the unassigned accent bytes 0xC9 and 0xCC dereference a null pointer. Proved: defined exactly when they are not used."),
"C19": (None, ""),
"C20": (None, "Finding: the UTF8 language group has no code and an empty description. All other rows proved."),
"C21": (None, "For the other tables the same statement is part of reads_table in the C20 theorems."),
"C22": ("partial", "Refuted: U8 is read as Latin/Hebrew. C22_as_is: no file is reported as UTF-8, and every U8 file is reported as Latin/Hebrew."),
"C57": (None, "Decimal separators that are one byte and not a digit, letter, sign or space."),
"C58": (None, "Finding: an empty argument is skipped and later arguments take its number. Proved for non-empty arguments; C58_compose_as_is says what happens in general."),
"C65": (None, ""),
"C29": (None, "The third case is the decoder's undefined behaviour of C18: an unassigned accent byte before a letter."),
"C30": (None, "Finding: rows can become negative (maximum rows 1, three rows from row 0). C30_as_is: in every file all rows move up by as many rows as the lowest is too low."),
"C31": (None, "Equality of the whole outcome, errors included."),
"C67": (None, ""),
"C68": (None, "Equivalence with the specification in Spec/StlFileSpec.v."),
"C23": (None, "For arguments in acceptable (Spec/StlWriteSpec.v): positive rates up to 255, valid text and times, placed lines; files below 2 GB."),
"C24": (None, "The refusal is an equivalence for all arguments whatever; the field contents for acceptable arguments."),
"C25": (None, "Finding: a number too long for its field loses its last digits (a 100-byte line is recorded as 10), and a negative revision number, which is not refused, is written as its minus sign and first digit (-12 as -1). C25_counters_as_is gives the four fields for all arguments."),
"C26": (None, "Finding: block number 255 is indistinguishable from the last-block mark (more than 256 blocks). C26_text_partial gives the number of every block, also of those."),
"C27": (None, "Finding: a time in the last half frame of a second gives a frame byte equal to the rate. C27_frames_as_is: exactly those times give it."),
"C28": (None, "Finding: the SubRip reader sets line without lines, which is undefined behaviour in the writer. Proved for pieces with usable positions, times and text, after any collect()."),
"C66": (None, "Finding: rows 7 and 14 of 23 move up by one. All other rows 0..23 proved. C66_as_is: the row of every block is that of the highest line, or one less if that is 7 or 14."),
"C69": ("partial", "Refuted: the number is always 0 (marked XXX in the source). C69_subtitle_number_as_is: in every file that is written every number is 0."),
"C36": (None, "With an optional byte order mark, \\n or \\r\\n, and blank lines."),
"C37": (None, "All strings; the only undefined case is int overflow of the seconds."),
"C38": (None, "Cues without SSA tags (C70) and right-to-left marks (C42). Colours are returned to when font tags close; the stack of open tags starts again on each line while the look continues."),
"C39": (None, "Findings: a closing font tag with none open reads the back of an empty vector; times beyond 2^31 seconds overflow. Exact condition in C71_undefined; proved defined for files with numbers of at most five digits and nested font tags. C39_as_is says exactly when."),
"C40": (None, "Finding: lines of more than 254 bytes are split and NULs cut a line when reading a FILE. Proved equal otherwise, up to line ends in the context of an error. C40_as_is: any file is read like the text of its 255 byte buffers, each cut at its first NUL."),
"C41": (None, "SubripErrors; exceptions of SSA tags carry no place."),
"C42": (None, "Finding: only text after the last tag of a line is cleaned. Proved for UTF-8 text without tags. C42_as_is: marks are only left directly in front of a tag."),
"C70": (None, "Finding: the tag does not end the piece, so earlier text on the line is restyled. Proved for tags in front of the text; C70_as_is: wherever tags are, they style the whole line."),
"C71": (None, ""),
"C43": (None, "With an optional byte order mark, text after WEBVTT, \\n or \\r\\n. The text of cues has no LINE SEPARATORs; C75 says what those do."),
"C44": (None, ""),
"C45": (None, "Undefined behaviour is int overflow of a time in a line with an arrow, and does not happen with numbers of at most five digits."),
"C72": (None, "Findings: mm:ss.ttt without hours is refused, and so are one, two or three (or more than four) cue settings. Proved for times with hours, spaces as separators, and none or four settings. C72_as_is: all others are refused with WebVTTError."),
"C73": (None, "Finding: lines of more than 254 bytes are split and NULs cut a line when reading a FILE. Proved equal otherwise, up to line ends in the context of an error. C73_as_is: any file is read like the text of its 255 byte buffers, each cut at its first NUL."),
"C74": (None, ""),
"C75": (None, ""),
"C46": (None, ""),
"C47": (None, "Spec/SsaUseSpec.v: ssa_shown; what each tag does is Spec/SsaTagSpec.v: override."),
"C48": (None, "Finding: in a\\\\nb (a double backslash) the second backslash and the n are counted as a line break although none is made. Proved, up to float rounding, for texts without that, and without alignment and position tags. C48_as_is: in all texts without such tags the rows are where they would be if those were line breaks."),
"C49": (None, ""),
"C50": (None, "With or without an alpha byte, in tags and styles; decimal colours in styles."),
"C51": (None, ""),
"C76": (None, "C76_undefined says exactly when reading is undefined (an int overflow) and C76_all_there_is that every file is read, refused or overflows."),
"C77": (None, "Finding: lines of more than 254 bytes are split and NULs cut a line when reading a FILE (the rest of a long comment is refused). Proved equal otherwise. C77_as_is: any file is read like the text of its 255 byte buffers, each cut at its first NUL."),
"C78": (None, "Finding: numbers that do not fit an int, or times that do not fit in int seconds, overflow. Proved for numbers of at most nine digits, five in dialogue lines; C78_as_is says exactly when."),
"C79": (None, "Finding: the vertical margin of the style is added to the position. Proved for styles without one, up to rounding to floats. C79_as_is: with a margin the result is the sum, rounded."),
"C80": (None, "Finding: the numbers are read as those of [V4+ Styles], so 5 to 11 are wrong. Proved for 1 to 3. C80_as_is: no other number is right."),
"C81": (None, ""),
"C98": (None, "Findings: the tables are made on first use without a lock, so the first conversions of a process race (and with every step atomic could still crash or lose characters), and a byte without meaning is entered into the table when it is read. Proved for readable text once the tables have been made."),
"C52": (None, "Finding: one character too many is cut off in front of the comma, so without a space the last digit of the start time is lost. Proved for lines with white space there. C52_as_is: without white space exactly the last digit is lost."),
"C53": (None, "Findings: the number of a line counts the bars since the previous piece of text, so third and later lines get number 1, and a bar at the end of a text leaks into the next subtitle. Proved for plain subtitles of at most two lines; C53_all_lines_partial gives the numbers for any number of lines."),
"C54": (None, "Finding: the last line of the file is lost if it does not end in a newline. Proved for lines that do. C54_as_is: the unended last line is never seen."),
"C55": (None, "The readers are the ones of the other properties. A .stl file of less than 11 bytes is read as empty, which is what it means if it means anything (C55_text)."),
"C56": (None, "The tags of the two styles may overlap rather than nest."),
"C82": (None, "For a stream in good state, as made by the factory for files of 11 bytes or more."),
"C83": (None, ""),
"C84": (None, "Finding: times that do not fit in int seconds overflow. Proved for numbers of at most five digits. C84_as_is says exactly when."),
"C85": (None, "Reading back is for times from zero on."),
"C86": (None, "How a proportional position is printed is C89."),
"C32": (None, "Findings: lines that do not go downwards, or share a row, are read on the wrong rows (C32_row_order_refuted); combining marks on their own join the next character (C29). Proved for lines that go downwards without such marks. What comes back otherwise is C34_as_is."),
"C33": (None, "Below 256 hours, the most the hours byte holds, and 100000 blocks, the most the header holds."),
"C34": (None, "Findings: the style is forgotten at a block boundary, the rows begin again, and an accented character can be cut in two. Proved for single lines of plain text with one byte per character, and for the characters alone (not their rows and styles) of any subtitles where no block ends in the middle of one. C34_as_is says for all acceptable subtitles exactly what comes back: each block seen on its own, from the highest row down and without style."),
"C35": (None, "Findings: 23.976 is read as 23 frames per second, and rates without a code are written as 25. The code and the rate it gives back are proved for all rates up to 255."),
"C87": (None, ""),
"C88": (None, ""),
"C89": (None, ""),
"C90": (None, ""),
"C91": (None, ""),
"C92": (None, "Finding: max() compares doubles, so of two fractions that differ by less than a double can hold it may give the smaller one (C92_max_refuted). Proved for numbers below 2^26. C92_max_as_is: what decides is the doubles nearest to the two fractions."),
"C93": (None, ""),
"C94": (None, "__FILE__ is never empty; file and line of an assertion are not part of the model of the functions that assert."),
"C95": (None, "getopt_long and the file system are modelled from their documentation."),
"C96": (None, ""),
"C97": (None, "Finding: unsigned long long is printed as if it were signed, so values from 2^63 come out negative (C97_unsigned_long_long_refuted)."),
"C99": (None, "Finding: nobody looks at the state of the output stream, so the writer returns as usual if the file cannot be opened or does not fit (C99_no_room_refuted, C99_not_opened_refuted). The rest is proved for up to 99999 blocks, the most the header holds."),
"C100": (None, ""),
"C101": (None, "Finding: in a file, a line of 254 bytes and a carriage return before the newline is split, and the rest is taken for an empty line (C101_file_refuted). Proved for all texts, and for files where the carriage return fits in the 255 bytes that are read at a time. The _as_is theorems and C101_file_all say exactly what any file with carriage returns is read as."),
"C102": (None, "Findings: the text STL reader does not know the mark, so the first line is not understood; the SSA reader does not trim white space after it. Proved for SubRip, WebVTT, and SSA without white space at the beginning. The _as_is, _lost and _throws theorems say what happens to the first line otherwise."),
"C103": (None, "Findings: SubRip and WebVTT milliseconds of many digits are read but overflow an int when collect() compares them (C103_subrip_refuted, C103_webvtt_refuted); an SSA dialogue whose text field comes before its start has no rate, so collect() throws (C103_ssa_refuted). Proved for all STL files, and for the others with short numbers and, for SSA, with the times before the text."),
"C104": (None, "Finding: an SSA dialogue whose text field comes before its start has no rate (C104_ssa_refuted). Proved for SSA files with the times before the text, and for all files in the other formats. C104_ssa_as_is: in any SSA file, times without the rate are those that were never set."),
"C105": (None, "Finding: the SubRip, WebVTT and text STL readers never set the number of lines, so write_stl_binary has undefined behaviour for everything they give (C105_subrip_refuted, C105_webvtt_refuted and C105_text_stl_refuted, for all files). Also for a header that says 00 rows (C105_no_rows_refuted) and for an SSA position far off the screen (C105_ssa_refuted). Proved for other binary STL files, and for SSA with positions on the screen, times from zero on and text of Unicode characters."),
"C106": (None, "Findings: colours are lost (C106_colour_refuted), rows 7 and 14 move (C66_row_refuted), subtitles that need more than one block are read back in pieces (C34). Proved for files of 23 rows without those, not at 23 frames a second (C35), for characters, rows, italic, underline and times. C106_as_is says exactly what is seen after loading and saving any file with rows, with rows and styles."),
"C107": (None, ""),
"C108": (None, "Findings: a WebVTT line that ends in U+2028 gives a piece without text (C108_webvtt_refuted), and so does a control code at the start of a row of a binary STL file (C108_binary_stl_refuted); a byte 10 in a binary STL text is kept as a line feed inside a piece (C108_binary_stl_lines_refuted). Proved for SubRip, SSA and text STL, and for WebVTT without U+2028; pieces of binary STL files without a byte 10 are on one line."),
"C109": (None, "Findings: in SSA a backslash, and in text STL a caret, takes away the byte after it even if that is only half of a character (C109_ssa_refuted, C109_text_stl_refuted); in a file, a character can be split at the end of the 255-byte buffer (C109_subrip_file_refuted). Proved for all texts in SubRip and WebVTT, all binary STL files, and for SSA and text STL if an ASCII character follows each backslash or caret."),
"C110": (None, "Findings: the colour of an SSA style without PrimaryColour is (255, 255, 255), as if parts went up to 255 (C110_ssa_refuted); SubRip rgba() numbers may be larger than 255 (C110_subrip_refuted). Proved for all WebVTT and STL files, for SubRip without rgba(), and for SSA if the formats of styles name PrimaryColour; C110_subrip_as_is says that every other colour of a SubRip file has a number over 255 that the file says; C110_ssa_as_is says that 255 in all parts is the only other colour in SSA."),
"C111": (None, ""),
"C112": (None, ""),
"C113": (None, "Reading from a string."),
"C114": (None, "Reading from a string, and text STL from a stream. For SubRip and WebVTT the theorems say what can be read and what is given, and not which error a file that cannot be read gives."),
"C115": (None, "Finding: frames that are shorter than a millisecond are rounded away (C115_fine_refuted). Proved for all whole rates up to 1000 frames a second; C115_fine_refuted is for every whole rate above that."),
"C116": (None, ""),
"C117": (None, ""),
"C118": (None, "Finding: the sum goes through milliseconds and is rounded down, so adding zero can take a frame away (C118_add_zero_refuted: frame 2 at 24 frames a second becomes frame 1). C118_add_zero_as_is: never more than one, and never the other way. C118_add_zero_rounds: it is lost just when its milliseconds are rounded down; if they are whole it may be lost too (C118_add_zero_25_refuted: frame 4 of second 1 at 25 frames a second)."),
"C119": (None, "Finding: a combining mark after a letter (decomposed text) moves to the next letter (C119_marks_refuted). Proved without such marks, where no block ends within a character (C34_accent_refuted), for any number of blocks. Rows and styles are not in this property: see C32, C34 and C106. C119_as_is says exactly what is seen, with rows and styles, also with marks and cut characters."),
"C120": (None, "Finding: where a line ends in an empty italic or underlined piece its code is read as the start of the next line, and the file changes once more (C120_empty_piece_refuted). Proved byte for byte for the files of C106 (23 rows, nothing on rows 7 and 14, a block for each subtitle) whose lines end in text."),
"C121": (None, "Finding: after a byte without a meaning has been read from any file, a NUL in a text is written as that byte (C121_write_refuted). Proved for all other texts and for all reading. C121_conversions: every theorem about (after h) holds after any session."),
"C122": (None, "Proved for SubRip and WebVTT (cues ended by an empty line; strings and files) and SSA (Dialogue lines). Findings: in text STL a style that is not turned off, or a row that is left open by a bar at the end, is for the next subtitles too (C122_text_stl_refuted); in binary STL all subtitles move up because of one that is too low, so they move back when it is taken out (C122_binary_stl_refuted). Proved for text STL lines that set nothing, for binary STL files whose rows fit, and for changing places in all binary STL files; C122_binary_stl_as_is says what happens otherwise."),
"C123": (None, "Proved for SubRip, WebVTT, SSA, text STL and binary STL: whatever is before and after. For SSA the format names Start and End before Text, which is last, as the specification of the format asks."),
"C124": (None, "Finding: the tags <b>, <i> and <u>, which are markup in both formats, are shown as text by the WebVTT reader (C124_refuted). Proved for text without tags, right-to-left marks and empty rows; C124_as_is says what the WebVTT reader gives for any text."),
"C125": (None, "Reading from a string. The keys of the styles can be in any order."),
"C126": (None, "Reading from a string. Finding: a margin of a dialogue that comes before its style is overwritten by that of the style (C126_events_refuted). Proved for styles, and for dialogues with no margin before the style."),
"C127": (None, "Finding: a piece on a numbered line that also has NaN as its proportion (in a SubRip file, \\pos(1,nan)) can be together with others on a line and comes apart when it is collected again (C127_subrip_refuted). Proved for all other pieces, and for files in every format; as in C103 the times have to be short enough to be compared."),
"C128": (None, "From strings, and from files a buffer at a time. In an SSA file a time that no field before the text gives is not set at all; if the start and the end come before the text, both are given (C128_ssa_timed)."),
"C129": (None, "Finding: every reader accepts a subtitle that ends before it starts (C129_*_refuted). Proved for files in which no line or block says so, and for what collect() makes of them."),
"C130": (None, "From strings, and from files with lines that fit the buffer. Errors of SubRip and WebVTT show the lines around them, so these may differ."),
"C131": (None, "Finding: the reader does not look at the extension block number, so user data is shown as text (C131_refuted, C131_as_is)."),
"C132": (None, "Finding: bytes are counted, not characters (C132_refuted). Proved for ASCII text with fewer than 100 characters; otherwise the number is never too small while it fits."),
"C133": (None, "Finding: the field is always 00000000 (C133_refuted), so it is right exactly if the first subtitle starts at 0 (C133_as_is)."),
"C134": (None, "Finding: the header says code page 850 but texts are written and read as they are, in UTF-8 (C134_written_refuted, C134_read_refuted). They are right exactly if they are ASCII. The reader is considered for code page 850 only, and the nine fields of 32 bytes."),
}
