#!/usr/bin/env python3
"""Writes ../properties.jsonl.  The list is kept here because multi-line text is easier to edit than JSON."""
import json, os

P = []
def prop(id, title, statement, quantifier, why, anchors):
    P.append(dict(id=id, title=title, statement=statement, quantifier=quantifier, why_tests_cant=why, anchors=anchors))

# ---------------------------------------------------------------- Time
prop("C01", "A Time built from hours, minutes, seconds and milliseconds gives the same components back",
     "For Time t = Time::from_hms(h,m,s,ms) with 0<=m,s<60 and h>=0 and no int overflow, t.hours()==h, t.minutes()==m, t.seconds()==s and t.milliseconds()==ms, although milliseconds() goes through double-precision arithmetic and rint.",
     "all h, m, s, ms that fit an int", "The floating point path has 2^31 inputs per component; a test only samples it.",
     ["src/sub_time.cc: Time::from_hms, hours, minutes, seconds, milliseconds, frames_at"])
prop("C02", "Comparing two Times with the same rate agrees with real time",
     "For Times a, b that have the same positive frame rate (or both no rate) and in-range frame counts, a<b, a>b and a==b are respectively the comparison of the instants they denote (seconds + frames/rate).",
     "all pairs of normalised Times with one positive rate, whose products do not overflow", "Infinitely many pairs of instants and rates.",
     ["src/sub_time.cc: operator<, operator>, operator=="])
prop("C03", "Comparing two Times with different rates agrees with real time",
     "For Times a, b with known (possibly different) positive frame rates, a<b iff the instant of a is before the instant of b, and a==b iff they are the same instant.",
     "all pairs of Times with known rates", "A test checks a few pairs, and the existing ones do not show the error.",
     ["src/sub_time.cc: operator<, operator>, operator=="])
prop("C04", "Which comparisons throw UnknownFrameRateError",
     "a==b and a!=b throw UnknownFrameRateError exactly when one of the two Times has a rate and the other has not; a<b and a>b throw exactly when additionally their whole seconds are equal.  No comparison throws anything else.",
     "all pairs of Times", "A universally quantified statement about error behaviour.",
     ["src/sub_time.cc: operator<, operator>, operator==, operator!="])
prop("C05", "Time comparison is a strict weak order, so sorting by start time is well defined",
     "On Times whose rates are all present with positive denominators (or all absent), operator< is irreflexive, transitive, and incomparability is transitive; exactly one of a<b, a==b, a>b holds; a!=b is the negation of a==b; a>b is b<a.",
     "all triples of Times for which the comparison is defined", "std::stable_sort in collect() has undefined behaviour if this fails for any triple.",
     ["src/sub_time.cc: operator<, operator>, operator==, operator!=", "src/collect.h: collect"])
prop("C06", "frames_at gives the nearest frame number",
     "t.frames_at(r) is the integer nearest (ties to even) to frames*den*r.num/(num*r.den), as exact rational arithmetic, for all positive rates: the rounding of the intermediate doubles never changes the answer.",
     "all frame counts, source rates and target rates whose int product does not overflow and whose exact dividend is below 2^52", "Double rounding errors occur at isolated points that sampling misses.",
     ["src/sub_time.cc: Time::frames_at"])
prop("C07", "Frame numbers survive conversion to milliseconds and back",
     "For an integer rate 1<=fps<=1000 and frame number 0<=f<fps, converting f at fps to milliseconds and that millisecond count back to fps gives f.",
     "all integer rates up to 1000 and all frames", "A numeric claim over all rates and frames.",
     ["src/sub_time.cc: Time::frames_at, milliseconds, from_hms, from_hmsf"])
prop("C08", "from_frames splits a frame count exactly",
     "Time::from_frames(f,r) with integer rate r and f>=0 gives seconds s and frames k with f = s*r + k and 0<=k<r; it raises ProgrammingError when the rate is not a whole number or has zero denominator.",
     "all frame counts and rates", "Universally quantified arithmetic.",
     ["src/sub_time.cc: Time::from_frames"])
prop("C09", "Time::add is exact addition at the finer rate",
     "For Times with integer rates, a.add(b) denotes exactly the sum of the instants, whenever that sum is representable at the larger of the two rates.",
     "all pairs of Times", "Truncation of a double product is wrong only at scattered points.",
     ["src/sub_time.cc: Time::add, all_as_seconds", "src/rational.cc: max"])
prop("C10", "Time::scale and frames_at give a normalised frame count",
     "The frame count of a Time after scale(f) (and the value of t.frames_at(r)) is always below the rate, so that it is a legal frame number; the scaled Time is the nearest frame to the scaled instant.",
     "all times, factors and target rates", "Rounding up happens only near the end of a second.",
     ["src/sub_time.cc: Time::scale, Time::frames_at"])
# ---------------------------------------------------------------- collect
prop("C11", "collect loses, duplicates and reorders nothing",
     "For every list of raw subtitles whose times are comparable, the blocks of collect()'s result, read in order, are exactly the input's text/format pieces stably sorted by start time: every piece appears exactly once, and pieces with equal start keep their input order.",
     "all lists of raw subtitles and every standard-conforming std::stable_sort", "Lists are unbounded and the sort algorithm is implementation defined.",
     ["src/collect.h: collect", "src/subtitle.cc: Subtitle, Line, Block constructors"])
prop("C12", "collect groups correctly and maximally",
     "In collect()'s result every subtitle has at least one line and every line at least one block; all pieces in a subtitle have the subtitle's from, to, fade_up and fade_down; all pieces of a line have the line's vertical position; neighbouring subtitles differ in from/to/fades and neighbouring lines in a subtitle differ in vertical position; subtitles are in non-decreasing start order.",
     "all lists of raw subtitles with comparable times", "Unbounded inputs.",
     ["src/collect.h: collect", "src/subtitle.cc: Subtitle::same_metadata", "src/vertical_position.cc: operator=="])
prop("C13", "collect never silently mixes timed and untimed rates",
     "If some pieces have a known frame rate in their start time and others do not, collect throws UnknownFrameRateError, whatever order the sort compares them in.",
     "all lists with mixed rate knowledge, every conforming sort", "Depends on which comparisons the sort makes.",
     ["src/collect.h: collect", "src/sub_time.cc: operator<, operator=="])
prop("C14", "Pieces with the same times end up in one subtitle",
     "Any two pieces with equal from, to, fade_up and fade_down are put in the same Subtitle by collect.",
     "all lists of raw subtitles", "The failure needs three pieces interleaved in a particular way.",
     ["src/collect.h: collect"])
# ---------------------------------------------------------------- ISO 6937 / UTF
prop("C15", "ISO 6937 text survives encoding and decoding",
     "For every string of characters that ISO 6937 can represent (other than bare combining accents), decoding the encoded bytes gives the string back; with substituted characters (en dash, hyphens, low quotes, prime) it gives the documented substitute.",
     "all strings over all code points", "There are unboundedly many strings; adjacent characters interact because accents are two-byte sequences.",
     ["src/iso6937.cc: utf16_to_iso6937, iso6937_to_utf16", "src/iso6937_tables.cc: make_iso6937_tables"])
prop("C16", "Text can never inject STL control codes",
     "No byte that utf16_to_iso6937 produces is an STL control code (below 0x08 or 0x80-0x9f), so no subtitle text can switch italics, break a row or end the text field of a written STL file.",
     "all strings over all code points", "Quantifies over every possible text.",
     ["src/iso6937.cc: utf16_to_iso6937", "src/stl_binary_writer.cc: make_tti_blocks"])
prop("C17", "Conversions do not depend on what was converted before",
     "The result of each ISO 6937 conversion is the same whatever sequence of conversions ran before it in the process, although decoding changes the global tables; the only character whose encoding can be affected is U+0000.",
     "all histories (finite sequences of encode and decode calls)", "Hidden global state: a test would have to enumerate all call histories.",
     ["src/iso6937.cc: iso6937_to_utf16, utf16_to_iso6937, find", "src/iso6937_tables.cc"])
prop("C18", "Decoding arbitrary bytes is memory safe",
     "iso6937_to_utf16 never has undefined behaviour, whatever bytes it is given.",
     "all byte strings", "Needs a particular two-byte sequence that no test file has.",
     ["src/iso6937.cc: iso6937_to_utf16"])
prop("C19", "Encoding works character by character and drops only what is not representable",
     "The encoding of a string is the concatenation of the encodings of its characters, each at most two bytes; a character is dropped iff it is in no table and has no substitute.",
     "all strings", "Unbounded inputs.",
     ["src/iso6937.cc: utf16_to_iso6937"])
# ---------------------------------------------------------------- STL tables
prop("C20", "Every STL code table is a bijection between file codes and meanings",
     "For every display standard, language group, language, timecode status, comment and justification value, the file code written for it is read back as the same value, distinct values have distinct codes, and descriptions map back to the value they describe.",
     "all enumerators of all six tables", "The property is about every entry and every pair of entries.",
     ["src/stl_binary_tables.cc", "src/stl_binary_tables.h"])
prop("C21", "Unknown codes in an STL file are rejected",
     "Reading a table code that is not in the table throws STLError naming the field and the code; no unknown code is mapped to some value.",
     "all byte strings as code", "All possible codes.",
     ["src/stl_binary_tables.cc: file_to_enum", "src/stl_binary_reader.cc: STLBinaryReader::read"])
prop("C22", "A UTF-8 STL file is reported as UTF-8",
     "The language group code U8 is reported as the UTF-8 language group.",
     "the U8 code of the language group table", "Needs relating the table to its intent; no test file uses it.",
     ["src/stl_binary_tables.cc: STLBinaryTables"])
# ---------------------------------------------------------------- STL writer
prop("C23", "A written STL file is structurally valid",
     "write_stl_binary writes one 1024-byte header and then whole 128-byte TTI blocks; the header's TTI and subtitle counts are the real numbers of blocks and subtitles (up to the 99999 the fields can hold), and each block holds the in/out times, vertical position, justification and 112 bytes of text or filler.",
     "all subtitle lists and all header values that are accepted", "Unbounded inputs.",
     ["src/stl_binary_writer.cc: write_stl_binary, make_tti_blocks"])
prop("C24", "Over-long header strings are refused before anything is written",
     "write_stl_binary raises ProgrammingError exactly when one of the header strings is longer than its field or the revision number is over 99, and otherwise every header string is found in its field padded with spaces.",
     "all header strings", "Unbounded strings.",
     ["src/stl_binary_writer.cc: write_stl_binary, put_string"])
prop("C25", "Header counters are right however large the file",
     "The TTI block count, subtitle count and longest-line fields of a written file equal the real values.",
     "all subtitle lists, including ones over 99999 blocks or with lines of 100 or more bytes", "A counter example needs a huge file or a very long line.",
     ["src/stl_binary_writer.cc: put_int_as_string, write_stl_binary"])
prop("C26", "All of a subtitle's text is written, in order",
     "Concatenating the text fields of a subtitle's TTI blocks and removing the filler gives its encoded text with row breaks and style codes, and every block but the last has an extension number that says so.",
     "all subtitles of any length", "Unbounded text, chunk boundaries.",
     ["src/stl_binary_writer.cc: make_tti_blocks"])
prop("C27", "Frame fields in a written STL file are legal",
     "The frame byte of each timecode in a TTI block is less than the frame rate.",
     "all subtitle times and frame rates", "Fails only in the last half frame of a second.",
     ["src/stl_binary_writer.cc: put_int_as_int, make_tti_blocks"])
prop("C28", "Any collected subtitles can be written as STL",
     "Subtitles read by any reader in the library and passed through collect can be given to write_stl_binary without undefined behaviour.",
     "all reader outputs", "Composition of components over all inputs.",
     ["src/stl_binary_writer.cc: vertical_position, make_tti_blocks", "src/subrip_reader.cc", "src/vertical_position.cc"])
# ---------------------------------------------------------------- STL reader
prop("C29", "Reading a binary STL file either succeeds or raises STLError",
     "For every byte stream, STLBinaryReader returns or throws STLError; it never reads out of bounds and has no undefined behaviour apart from the ISO 6937 decoder's.",
     "all byte streams", "Quantifies over all file contents.",
     ["src/stl_binary_reader.cc: STLBinaryReader::read, InputReader"])
prop("C30", "Row numbers are corrected into range",
     "After reading, every row number is at most the maximum number of rows, differences between rows are preserved, and no row number is negative.",
     "all files", "Depends on the maximum over the whole file.",
     ["src/stl_binary_reader.cc: STLBinaryReader::read"])
prop("C31", "Comment blocks produce no subtitles",
     "TTI blocks marked as comment contribute no subtitle and change no other block's subtitles.",
     "all files", "All placements of comment blocks in all files.",
     ["src/stl_binary_reader.cc: STLBinaryReader::read"])
prop("C32", "Writing and reading back preserves styled text",
     "For subtitles whose encoded text fits one TTI block, reading the written file gives the same characters on the same rows with the same italic and underline state (after ISO 6937 substitution), in the same order.",
     "all lists of such subtitles", "Composition of writer and reader over all inputs.",
     ["src/stl_binary_writer.cc: write_stl_binary", "src/stl_binary_reader.cc: STLBinaryReader::read"])
prop("C33", "Writing and reading back preserves times",
     "For frame rates 24, 25 and 30, times that fall on a frame are read back as exactly the same instant, and other times within half a frame.",
     "all times below 256 hours", "All times and rates.",
     ["src/stl_binary_writer.cc: make_tti_blocks", "src/stl_binary_reader.cc: get_timecode", "src/stl_util.cc"])
prop("C34", "Writing and reading back preserves long text",
     "The styled text round trip also holds for subtitles whose text needs several TTI blocks.",
     "all subtitles of more than 112 bytes", "Needs long styled text with the break at a particular place.",
     ["src/stl_binary_writer.cc: make_tti_blocks", "src/stl_binary_reader.cc: STLBinaryReader::read"])
prop("C35", "Every frame rate the format code can express is written and read back",
     "stl_frame_rate_to_dfc followed by stl_dfc_to_frame_rate gives the frame rate back, and the reader uses that rate for its times.",
     "all frame rates", "All float values.",
     ["src/stl_util.cc: stl_frame_rate_to_dfc, stl_dfc_to_frame_rate", "src/stl_binary_reader.cc: STLBinaryReader::read"])
# ---------------------------------------------------------------- SubRip
prop("C36", "SubRip files are read back exactly",
     "Rendering any list of cues (times, plain text lines) as a SubRip file and reading it gives, in order, one raw subtitle per text line with the cue's times, that text and consecutive line numbers from 0.",
     "all lists of cues with plain text", "Unbounded files.",
     ["src/subrip_reader.cc: SubripReader::read, convert_time, convert_line"])
prop("C37", "SubRip times are parsed exactly or rejected",
     "convert_time accepts exactly strings of three colon-separated fields, the last with one decimal separator, each part a decimal int, and returns the Time with those parts; every other string raises SubripError naming what was expected.",
     "all strings", "All strings.",
     ["src/subrip_reader.cc: SubripReader::convert_time"])
prop("C38", "SubRip formatting tags style exactly the text they enclose",
     "For text with bold, italic, underline and font colour tags (angle or brace form, any case), the output pieces concatenate to the text without tags, and every character has exactly the bold/italic/underline/colour that the tags before it set.",
     "all tagged texts", "Unbounded nesting and interleaving.",
     ["src/subrip_reader.cc: SubripReader::convert_line, maybe_content"])
prop("C39", "Reading a SubRip file never has undefined behaviour",
     "For every input SubripReader returns or throws an exception derived from std::exception.",
     "all inputs", "Quantifies over all files; the failing ones are legal-looking.",
     ["src/subrip_reader.cc: SubripReader::convert_line"])
prop("C40", "SubRip reading from a FILE and from a string agree",
     "SubripReader(FILE*) and SubripReader(string) give the same result on the same content.",
     "all contents", "Differs only on long lines or NUL bytes.",
     ["src/util.cc: get_line_string, get_line_file", "src/subrip_reader.cc: SubripReader"])
prop("C41", "SubRip errors point to the right place",
     "A SubripError raised while reading reports the number of the offending line, the offending text, and as context only lines of the file around that line, at most seven, in file order.",
     "all inputs that cause an error", "All malformed files.",
     ["src/subrip_reader.cc: SubripReader::read", "src/exceptions.cc"])
prop("C42", "Right-to-left embedding marks are removed from SubRip text",
     "No text returned by SubripReader contains U+202B.",
     "all inputs", "Depends on the position of tags relative to the mark.",
     ["src/subrip_reader.cc: SubripReader::convert_line"])
# ---------------------------------------------------------------- WebVTT
prop("C43", "WebVTT files are read back exactly",
     "Rendering any list of cues with optional identifiers and comments as a WebVTT file and reading it gives one raw subtitle per text line with the cue's times and consecutive line numbers, and nothing for comments and identifiers.",
     "all lists of cues, identifiers and comments", "Unbounded files.",
     ["src/web_vtt_reader.cc: WebVTTReader::read"])
prop("C44", "A file without a WEBVTT header is rejected",
     "Every non-empty input whose first line (after BOM removal) does not start with WEBVTT raises WebVTTHeaderError, and no other input does.",
     "all inputs", "All inputs.",
     ["src/web_vtt_reader.cc: WebVTTReader::read"])
prop("C45", "Reading a WebVTT file is safe",
     "For every input the reader returns or throws a sub exception, apart from int overflow in the hours of a time.",
     "all inputs", "All inputs.",
     ["src/web_vtt_reader.cc: WebVTTReader::read"])
# ---------------------------------------------------------------- SSA
prop("C46", "SSA text may contain commas",
     "The Text field of a Dialogue line is everything after the field separator, commas included, whatever it contains; the other fields are split at commas.",
     "all Dialogue bodies and formats whose last field is Text", "All texts.",
     ["src/ssa_reader.cc: SSAReader::read"])
prop("C47", "SSA override tags style exactly the text after them",
     "For lines with italic, bold, underline, font size, colour and alignment tags, output pieces concatenate to the text without tags and line breaks, and every character carries the style set by the tags before it.",
     "all texts", "Unbounded interleavings.",
     ["src/ssa_reader.cc: SSAReader::parse_line, parse_tag"])
prop("C48", "SSA line breaks are laid out evenly in reading order",
     "The number of line breaks before a piece determines its vertical position: bottom-referenced pieces are lower by one line size per later break, top-referenced ones by one line size per earlier break, centred ones symmetric about the centre.",
     "all texts and styles", "All texts.",
     ["src/ssa_reader.cc: SSAReader::parse_line"])
prop("C49", "SSA alignment codes map to the documented corner",
     "\\an1..9 and the Alignment style field select the horizontal and vertical reference of the numeric keypad layout.",
     "all alignment codes and styles", "All codes in both version dialects.",
     ["src/ssa_reader.cc: parse_tag, Style"])
prop("C50", "SSA colours are read in the right byte order",
     "For every r, g, b in 0..255, the colour written &Hbbggrr (any alpha byte in front) is read as r/255, g/255, b/255.",
     "all colours", "2^24 colours and all spellings.",
     ["src/ssa_reader.cc: h_colour"])
prop("C51", "SSA times are centiseconds",
     "parse_time of h:mm:ss.cc gives h hours, mm minutes, ss seconds and 10*cc milliseconds.",
     "all times", "All times.",
     ["src/ssa_reader.cc: SSAReader::parse_time"])
# ---------------------------------------------------------------- STL text
prop("C52", "Text STL start times are parsed whole",
     "In a text STL line \"from, to, text\" the start time is the whole text before the first comma.",
     "all lines", "The existing tests all have a space before the comma.",
     ["src/stl_text_reader.cc: STLTextReader"])
prop("C53", "Text STL lines are numbered consecutively",
     "The k-th line of a multi-line text STL subtitle (separated by |) has line number k.",
     "all subtitles with any number of lines", "Needs three or more lines, or style changes within a line.",
     ["src/stl_text_reader.cc: STLTextReader, maybe_push"])
prop("C54", "No text STL line is lost",
     "Every well-formed subtitle line of the input produces its text.",
     "all inputs", "Fails only for a last line without newline.",
     ["src/stl_text_reader.cc: STLTextReader"])
# ---------------------------------------------------------------- misc
prop("C55", "Reader choice depends only on name and first bytes",
     "reader_factory picks the SubRip reader for .srt, binary STL for .stl files with STL at offset 3, text STL for other .stl files, in any letter case, and null otherwise.",
     "all file names and contents", "All names and contents.",
     ["src/reader_factory.cc: reader_factory"])
prop("C56", "Dumped text has matching style tags",
     "In dump()'s output each line's <i> and <u> are each opened and closed alternately, ending closed, and removing tags gives the text of the blocks.",
     "all subtitle lists", "Unbounded.",
     ["src/util.cc: dump"])
prop("C57", "Numbers are parsed the same in every locale",
     "raw_convert<float> and raw_convert<int> give the same value whatever the decimal separator of the process locale, for text that does not itself contain that separator.",
     "all texts and all one-character decimal separators", "All locales.",
     ["src/raw_convert.cc: make_local", "src/locale_convert.cc"])
prop("C58", "String::compose substitutes each argument at its own marker",
     "compose(fmt,a1..an) replaces every %k by ak and leaves the rest of fmt alone.",
     "all formats and arguments, including empty ones", "Depends on argument values.",
     ["src/compose.hpp: Composition"])
prop("C59", "Equality of positions is an equivalence and agrees with geometry",
     "VerticalPosition and HorizontalPosition equality is reflexive, symmetric and transitive.",
     "all positions", "All triples.",
     ["src/vertical_position.cc: operator==", "src/horizontal_position.cc: operator=="])
prop("C60", "Vertical order follows the screen",
     "For positions that are fully specified, VerticalPosition::operator< is the order of the distance from the top of the screen, and is a strict weak order.",
     "all specified positions", "All float values and references.",
     ["src/vertical_position.cc: fraction_from_screen_top, operator<"])
# ---------------------------------------------------------------- found while modelling
prop("C61", "all_as_seconds is accurate to half a millisecond",
     "t.all_as_seconds() differs from the instant t denotes (seconds + frames/rate) by at most half a millisecond plus one microsecond.",
     "all Times with a positive rate and a frame count within one second", "Two double roundings and one rounding to milliseconds; all rates.",
     ["src/sub_time.cc: Time::all_as_seconds, milliseconds"])
prop("C62", "Hexadecimal colours are read exactly",
     "Colour::from_rgb_hex on rrggbb (and from_rgba_hex on rrggbbaa) in hex digits of either case gives the floats nearest to rr/255, gg/255 and bb/255, whatever the alpha; strings too short to hold the components, or not starting with a digit, raise XMLError.",
     "all digit strings and all other strings", "16^8 inputs and unbounded junk.",
     ["src/colour.cc: Colour::from_rgb_hex, from_rgba_hex"])
prop("C63", "Font sizes convert between points and proportion without loss",
     "A size set in points is reported unchanged in points, and as the float nearest points/height as a proportion; taking the proportion and converting back at the same height gives the same number of points.",
     "all sizes and screen heights", "Float rounding followed by truncation, for every pair of ints.",
     ["src/font_size.cc: FontSize::proportional, points, specified"])
prop("C64", "Equality of blocks, lines and subtitles looks at every field",
     "Two blocks are equal iff all their fields are (floats by value); two lines iff positions and blocks are, in order; two subtitles iff times, fades and lines are.",
     "all pairs of blocks, lines and subtitles", "Every combination of fields and list lengths.",
     ["src/subtitle.cc: operator=="])

prop("C65", "The ISO 6937 decoder agrees with the standard",
     "Bytes that ISO 6937 assigns a character to decode to that Unicode character, an accent byte followed by a letter decodes to the letter with that accent (by the Unicode canonical compositions), and a sequence of bytes has only one meaning.",
     "all byte strings and all process histories", "All byte strings; state shared by all conversions.",
     ["src/iso6937.cc: iso6937_to_utf16", "src/iso6937_tables.cc: make_iso6937_tables"])

prop("C66", "Reading a binary STL file and writing it again keeps every row",
     "A subtitle that STLBinaryReader puts on row k of n is written by write_stl_binary in the same place: a file written by the library and read back can be written again with every subtitle on its row.",
     "all rows and all maximum row counts", "Every row of every possible row count goes through float arithmetic and truncation.",
     ["src/stl_binary_writer.cc: vertical_position", "src/stl_binary_reader.cc: STLBinaryReader::read"])
prop("C67", "UTF-8 text is converted without loss",
     "Converting valid UTF-8 to wide characters gives the encoded characters, converting back gives the same bytes, and malformed input never gives anything but Unicode characters.",
     "all byte strings and all wide strings", "All strings, including every boundary of the encoding.",
     ["src/stl_binary_reader.cc: utf_to_utf", "src/stl_binary_writer.cc: utf_to_utf", "src/subrip_reader.cc: fix_multiple_encoding"])
prop("C68", "Reading a binary STL file gives exactly what its bytes mean",
     "STLBinaryReader returns header fields and subtitles if and only if they are the ones the file's bytes mean under EBU Tech 3264: every header field from its position, per block the in and out times, rows from the vertical position and row breaks, colours, italics and underline from the control codes, and text by ISO 6937.",
     "all byte streams, all process histories", "All files: any number of blocks and any order of control codes.",
     ["src/stl_binary_reader.cc: STLBinaryReader::read"])

prop("C69", "TTI blocks carry the number of their subtitle",
     "In a file written by write_stl_binary, the subtitle number field of every TTI block is the position of its subtitle, so that blocks of different subtitles can be told apart.",
     "all subtitle lists",
     "A claim about every block of every file.",
     ["src/stl_binary_writer.cc: make_tti_blocks"])
prop("C70", "SSA override tags in SubRip text style only the text after them",
     "In a SubRip line an SSA tag in braces, such as {\\i1}, changes the look of the text after it and not of the text before it.",
     "all lines with SSA tags", "All positions of all tags in all lines.",
     ["src/subrip_reader.cc: SubripReader::convert_line", "src/ssa_reader.cc: SSAReader::parse_tag"])
prop("C71", "Reading a SubRip file gives exactly what its text means",
     "SubripReader returns subtitles if and only if they are the ones the text means: counter, timing and text lines in cues, LINE SEPARATORs, tags, colours and SSA tags; it throws the stated exception if and only if a line has the stated fault, and has undefined behaviour only in the stated cases.",
     "all strings", "All files, well formed or not.",
     ["src/subrip_reader.cc: SubripReader::read, convert_line, convert_time, maybe_content", "src/util.cc: get_line_string, remove_unicode_bom"])
prop("C72", "Timing lines of the WebVTT standard are read",
     "Every cue timing line the WebVTT standard allows, with or without hours and with any cue settings after it, is read and its times are the ones it says.",
     "all timing lines of the standard", "All times, spacings and combinations of settings.",
     ["src/web_vtt_reader.cc: WebVTTReader::read", "src/subrip_reader.cc: SubripReader::convert_time"])
prop("C73", "Reading a WebVTT file is the same as reading its content",
     "The FILE constructor gives the same result as the string constructor on the file's content.",
     "all byte streams", "All lengths and alignments of lines against the buffer.",
     ["src/web_vtt_reader.cc: WebVTTReader::WebVTTReader", "src/util.cc: get_line_file"])
prop("C74", "WebVTT errors show the offending text in its context",
     "Every WebVTTError carries text that is in the line it complains about, and the lines up to that line (and perhaps the next ones) as context.",
     "all inputs that raise it", "All malformed files.",
     ["src/web_vtt_reader.cc: WebVTTReader::read"])
prop("C75", "Reading a WebVTT file gives exactly what its text means",
     "WebVTTReader returns subtitles if and only if they are the ones the text means: header, notes, identifiers, cues with timing lines and text; it throws the stated exception if and only if a line has the stated fault, and has undefined behaviour only in the stated case.",
     "all strings", "All files, well formed or not.",
     ["src/web_vtt_reader.cc: WebVTTReader::read"])
prop("C76", "Reading an SSA file gives exactly what its text means",
     "SSAReader returns subtitles if and only if they are the ones the text means: sections, PlayRes, styles, event formats, dialogue fields, and texts with tags and line breaks; it throws the stated exception if and only if a line has the stated fault.",
     "all strings", "All files, well formed or not.",
     ["src/ssa_reader.cc: SSAReader::read, parse_line, parse_tag, Style"])
prop("C77", "Reading an SSA file is the same as reading its content",
     "The FILE constructor gives the same result as the string constructor on the file's content.",
     "all byte streams", "All lengths and alignments of lines against the buffer.",
     ["src/ssa_reader.cc: SSAReader::SSAReader", "src/util.cc: get_line_file"])
prop("C78", "Reading an SSA file never has undefined behaviour",
     "SSAReader either returns subtitles or throws, whatever the text.",
     "all strings", "All numbers in all fields.",
     ["src/ssa_reader.cc: SSAReader::read, parse_time", "src/raw_convert.cc: raw_convert", "src/sub_time.cc: Time::from_hms"])
prop("C79", "SSA positions are where the tag says",
     "Text after \\pos(x,y) has horizontal position x / PlayResX from the left and vertical position y / PlayResY from the top, for any decimal numbers x and y.",
     "all positions, screens and styles", "All numbers and all margins.",
     ["src/ssa_reader.cc: SSAReader::parse_tag, SSAReader::parse_line"])
prop("C80", "Alignments in [V4 Styles] have the meaning they have in SSA",
     "In [V4 Styles], Alignment 1 to 3 is left, centre and right at the bottom, 5 to 7 at the top, and 9 to 11 in the middle.",
     "all styles", "All alignment codes in all styles.",
     ["src/ssa_reader.cc: Style::Style"])
prop("C81", "Decimal numbers are read as the nearest float",
     "raw_convert<float> of a decimal number, with or without sign, fraction and exponent, and whatever follows it, gives the float nearest to it (an infinity if it is too large); likewise hexadecimal numbers; a text that is no number gives 0.",
     "all texts", "All texts: numbers of any length, hexadecimal ones, overflow, infinities, and what is no number.",
     ["src/raw_convert.cc: raw_convert"])
prop("C82", "Reading a text STL file gives exactly what its text means",
     "STLTextReader returns subtitles if and only if they are the ones the text means: settings, comments, subtitle lines with two times, and texts with | and ^B, ^I and ^U.",
     "all strings", "All files, well formed or not.",
     ["src/stl_text_reader.cc: STLTextReader::STLTextReader, time, set, maybe_push"])
prop("C83", "Why reading a text STL file stops",
     "STLTextReader throws bad_lexical_cast, or has undefined behaviour, exactly when a line has a field that is not a number, or a time that does not fit in int seconds.",
     "all strings", "All malformed files.",
     ["src/stl_text_reader.cc: STLTextReader::time, set", "src/sub_time.cc: Time::from_hmsf"])
prop("C84", "Reading a text STL file never has undefined behaviour",
     "STLTextReader either returns subtitles or throws, whatever the text.",
     "all strings", "All numbers in all fields.",
     ["src/stl_text_reader.cc: STLTextReader::time", "src/sub_time.cc: Time::from_hmsf"])
prop("C85", "Times are printed so that they can be read",
     "Writing a Time to a stream gives hours, minutes, seconds (two digits each) and frames, with the rate if there is one; without a rate the text is a time that the text STL reader reads as the same time.",
     "all times", "All times of any sign and size.",
     ["src/sub_time.cc: operator<<, Time::hours, Time::minutes, Time::seconds", "src/stl_text_reader.cc: STLTextReader::time"])
prop("C86", "dump() shows everything that was read",
     "dump() writes each metadata entry, and for every subtitle that collect() makes its number, its times, and each line with its position and text; if collect() throws so does dump().",
     "all readers", "Unbounded lists.",
     ["src/util.cc: dump"])
prop("C87", "Header values come back",
     "Reading a file that was written gives the titles, names, contact details, publisher and editor (padded with spaces to their fields), the dates, country, language and revision number that were given, and the right numbers of blocks and subtitles.",
     "all lists of subtitles and header values that can be written in fewer than 100000 blocks", "All header values, all files.",
     ["src/stl_binary_writer.cc: write_stl_binary", "src/stl_binary_reader.cc: STLBinaryReader::read"])
prop("C88", "Every file that is written can be read",
     "STLBinaryReader reads every file that write_stl_binary writes, without exceptions or undefined behaviour, and gives in order the pieces of each subtitle's own blocks.",
     "all lists of subtitles and header values that can be written in fewer than 100000 blocks", "All texts, styles, rows and lengths.",
     ["src/stl_binary_writer.cc: write_stl_binary", "src/stl_binary_reader.cc: STLBinaryReader::read"])
prop("C89", "Proportional positions are printed to six significant figures",
     "dump() prints a proportional position as the decimal number nearest to it with six significant figures, without zeros at the end, and with an exponent if it is below 0.0001 or 1000000 and above.",
     "all floats", "All 2^32 floats.",
     ["src/util.cc: dump"])
prop("C90", "Names of effects and alignments are recognised",
     "string_to_effect and string_to_vertical_reference accept exactly none, border and shadow, and top, center and bottom, and otherwise throw XMLError.",
     "all strings", "All other strings.",
     ["src/effect.cc: string_to_effect", "src/vertical_reference.cc: string_to_vertical_reference"])
prop("C91", "White space is space, newline and tab",
     "empty_or_white_space is true exactly for strings in which every character is a space, a newline or a tab.",
     "all strings", "All strings of any length.",
     ["src/util.cc: empty_or_white_space"])
prop("C92", "Rational behaves as a fraction",
     "operator== compares numerators and denominators; integer() says whether the fraction is a whole number; integer_fraction() is its whole part; fraction() is the nearest double; max() is the larger of two fractions.",
     "all numerators and denominators", "All pairs of fractions.",
     ["src/rational.h: Rational::fraction, Rational::integer_fraction", "src/rational.cc: operator==, Rational::integer, max"])
prop("C93", "metadata() of a binary STL file gives what its header says",
     "For every file that is read, metadata() has the 29 entries of the header: text as it is in the file, numbers, and the descriptions of codes.",
     "all files", "All headers.",
     ["src/stl_binary_reader.cc: STLBinaryReader::metadata, STLBinaryReader::read"])
prop("C94", "Exceptions say what was wrong",
     "what() of SubripError and WebVTTError says what was seen and what was expected, and in which line; what() of the other exceptions is their message.",
     "all exceptions", "All texts that can be wrong, also those with percent signs.",
     ["src/exceptions.cc: SubripError::SubripError, WebVTTError::WebVTTError, ProgrammingError::ProgrammingError", "src/exceptions.h", "src/compose.hpp"])
prop("C95", "dumpsubs shows a file or says why not",
     "dumpsubs with one file writes the file's metadata and subtitles to standard output and succeeds; -h and --help give help; no file, several files, a file that does not exist, or one without a reader give an error.",
     "all arguments and files", "All command lines and all files.",
     ["tools/dumpsubs.cc: main, help"])
prop("C96", "Every unusable line of a text STL file is reported",
     "While a text STL file is read, standard output gets one warning for each line that is neither a comment, a setting nor a subtitle, and one for each time that is not a time; nothing else is written, in the order of the lines, up to the line that throws.",
     "all files", "All files, with any number of faults in any order.",
     ["src/stl_text_reader.cc: STLTextReader::STLTextReader, STLTextReader::time", "src/reader.cc: Reader::warn", "src/compose.hpp"])
prop("C97", "Numbers in messages are written in decimal",
     "locale_convert<string> of an int, long, unsigned long or unsigned long long gives its decimal digits, with a minus sign if it is negative; a string is left as it is.",
     "all values of these types", "All 2^32 or 2^64 values.",
     ["src/locale_convert.cc: locale_convert"])
prop("C98", "Conversions in several threads do not disturb each other",
     "When several threads convert text to or from ISO 6937 at the same time (as reading and writing binary STL files does), no two of them access the shared tables at the same time with one writing, and each gets what it gets when it runs alone.",
     "all numbers of threads, all texts, all schedules", "Schedules cannot be enumerated or forced by a test; the race is only seen in unlucky runs.",
     ["src/iso6937.cc: iso6937_to_utf16, utf16_to_iso6937", "src/iso6937_tables.cc: make_iso6937_tables"])
prop("C99", "A write that was cut short can be told from a finished one",
     "If write_stl_binary is stopped at any point (a crash, a full disk), the file at that path is the old one, or complete, or STLBinaryReader refuses it with an STLError that says that the header or a block is missing. If write_stl_binary throws, the old file is untouched; if it returns, the file is complete. A readable file cut anywhere before the end of its last block is refused.",
     "all subtitles and header fields, all points at which the program can be stopped, all sizes of writes, all media", "A test cannot stop the program at every point, nor cut every file everywhere.",
     ["src/stl_binary_writer.cc: write_stl_binary", "src/stl_binary_reader.cc: STLBinaryReader::read, FILEInputReader::read, StreamInputReader::read"])
prop("C100", "What comes later in a file does not change what came before",
     "For SubRip, WebVTT and SSA: if a text that ends in a newline, followed by anything, can be read, then that text alone can be read and gives the first of the subtitles. For text STL the same holds for any text. So the beginning of a file (a download that is not finished) shows the subtitles that the whole file begins with.",
     "all texts and all continuations", "All texts, cut at every line.",
     ["src/subrip_reader.cc: SubripReader::read", "src/web_vtt_reader.cc: WebVTTReader::read", "src/ssa_reader.cc: SSAReader::read", "src/stl_text_reader.cc: STLTextReader::STLTextReader", "src/util.cc: get_line_string, get_line_file"])
prop("C101", "Line ends do not matter",
     "A text file with a carriage return before some or all of its newlines gives the same subtitles, or the same error, as without: SubRip, WebVTT, SSA and text STL, from a string or from a file.",
     "all texts and all choices of line ends", "All texts, with any mixture of line ends.",
     ["src/subrip_reader.cc: SubripReader::read", "src/web_vtt_reader.cc: WebVTTReader::read", "src/ssa_reader.cc: SSAReader::read", "src/stl_text_reader.cc: STLTextReader::STLTextReader", "src/util.cc: get_line_string, get_line_file"])
prop("C102", "A byte order mark does not matter",
     "A text file with a UTF-8 byte order mark at its beginning gives the same subtitles, or the same error, as without: SubRip, WebVTT, SSA and text STL.",
     "all texts", "All texts.",
     ["src/util.cc: remove_unicode_bom", "src/subrip_reader.cc: SubripReader::read", "src/web_vtt_reader.cc: WebVTTReader::read", "src/ssa_reader.cc: SSAReader::read", "src/stl_text_reader.cc: STLTextReader::STLTextReader"])
prop("C103", "What a reader gives can be collected",
     "The subtitles that any reader gives for a file can be passed to collect() with any stable sort: it returns subtitles made of all the pieces, in order of their start.",
     "all files that can be read", "All files that can be read, with any times in any order.",
     ["src/collect.h: collect", "src/sub_time.cc: operator<", "src/subrip_reader.cc: SubripReader::read", "src/web_vtt_reader.cc: WebVTTReader::read", "src/ssa_reader.cc: SSAReader::read", "src/stl_binary_reader.cc: STLBinaryReader::read", "src/stl_text_reader.cc: STLTextReader::STLTextReader"])
prop("C104", "The times in one file have one rate",
     "All subtitles from one file have times of the same rate: milliseconds for SubRip, WebVTT and SSA, the frame rate of the header for binary STL, and none for text STL. No reader sets fades.",
     "all files that can be read", "All files that can be read.",
     ["src/subrip_reader.cc: SubripReader::read, SubripReader::convert_time", "src/web_vtt_reader.cc: WebVTTReader::read", "src/ssa_reader.cc: SSAReader::read, SSAReader::parse_time", "src/stl_binary_reader.cc: STLBinaryReader::read, STLBinaryReader::get_timecode", "src/stl_text_reader.cc: STLTextReader::time"])
prop("C105", "A file that can be read can be converted to binary STL",
     "What any reader gives for a file can be collected and then written as binary STL at any rate, and the file has what was collected; no conversion has undefined behaviour.",
     "all files that can be read, all rates and header fields", "All files that can be read, composed with collect() and the writer.",
     ["src/stl_binary_writer.cc: write_stl_binary, vertical_position", "src/collect.h: collect", "src/subrip_reader.cc: SubripReader::read", "src/web_vtt_reader.cc: WebVTTReader::read", "src/ssa_reader.cc: SSAReader::read", "src/stl_binary_reader.cc: STLBinaryReader::read", "src/stl_text_reader.cc: STLTextReader::STLTextReader"])
prop("C106", "A binary STL file that is loaded and saved shows the same",
     "A binary STL file that is read, collected and written at the same rate gives, when it is read again, the same characters on the same rows, in the same style and colour, at the same times.",
     "all binary STL files", "All files, composed through the reader, collect(), the writer and the reader.",
     ["src/stl_binary_reader.cc: STLBinaryReader::read", "src/collect.h: collect", "src/stl_binary_writer.cc: write_stl_binary"])
prop("C107", "Readers do not invent text",
     "The text of all pieces that a text file reader gives, one after the other, is what is left of the file when some of its characters are taken away: nothing is added, repeated or put in another order. SubRip, WebVTT and SSA from a string or from a file, and text STL.",
     "all files that can be read", "All files that can be read.",
     ["src/subrip_reader.cc: SubripReader::read, SubripReader::convert_line", "src/web_vtt_reader.cc: WebVTTReader::read", "src/ssa_reader.cc: SSAReader::read, SSAReader::parse_line", "src/stl_text_reader.cc: STLTextReader::STLTextReader", "src/util.cc: get_line_string, get_line_file"])
prop("C108", "Every piece has some text, on one line",
     "No reader gives a piece with an empty text, or one with a newline in it.",
     "all files that can be read", "All files that can be read.",
     ["src/subrip_reader.cc: SubripReader::maybe_content", "src/web_vtt_reader.cc: WebVTTReader::read", "src/ssa_reader.cc: SSAReader::parse_line", "src/stl_text_reader.cc: STLTextReader::maybe_push", "src/stl_binary_reader.cc: STLBinaryReader::read"])
prop("C109", "Text in UTF-8 stays in UTF-8",
     "If a file is in UTF-8, the text of every piece that its reader gives is in UTF-8. Texts from binary STL files are always in UTF-8.",
     "all files that can be read", "All files that can be read, with any characters next to any tags.",
     ["src/subrip_reader.cc: SubripReader::convert_line", "src/web_vtt_reader.cc: WebVTTReader::read", "src/ssa_reader.cc: SSAReader::parse_line", "src/stl_text_reader.cc: STLTextReader::STLTextReader", "src/stl_binary_reader.cc: STLBinaryReader::read", "src/util.cc: get_line_file"])
prop("C110", "Colours are in range",
     "The red, green and blue parts of every colour that a reader gives are between 0 and 1.",
     "all files that can be read", "All files that can be read.",
     ["src/colour.cc: Colour::from_rgb_hex, Colour::from_rgba_hex", "src/subrip_reader.cc: SubripReader::convert_line", "src/ssa_reader.cc: h_colour, Style::colour, SSAReader::parse_line", "src/stl_binary_reader.cc: STLBinaryReader::read"])
prop("C111", "The order of the pieces does not matter to collect()",
     "collect() gives the same subtitles whatever order the pieces are in, as long as pieces that start together stay in order among themselves.",
     "all lists of pieces and all orders of them, and every conforming sort", "All orders of any number of pieces.",
     ["src/collect.h: collect", "src/raw_subtitle.cc: operator<"])
prop("C112", "Pieces can be collected in parts",
     "If everything in a first list starts before everything in a second, collecting the two lists together gives what collecting each gives, one after the other.",
     "all lists of pieces, and every conforming sort", "All lists of pieces.",
     ["src/collect.h: collect"])
prop("C113", "Files can be joined",
     "If a SubRip file ends in an empty line, putting another one after it gives what the first gives followed by what the second gives, and the whole can be read if and only if both can. The same holds for WebVTT, if the second file begins with a header.",
     "all pairs of files", "All pairs of files.",
     ["src/subrip_reader.cc: SubripReader::read", "src/web_vtt_reader.cc: WebVTTReader::read"])
prop("C114", "Comments, notes and empty lines do not matter",
     "Comments in SSA and text STL files, further empty lines between SubRip cues, and notes between WebVTT cues change nothing in what the readers give.",
     "all files, and all comments at any line of them", "All comments at all places in all files.",
     ["src/ssa_reader.cc: SSAReader::read", "src/stl_text_reader.cc: STLTextReader::STLTextReader", "src/subrip_reader.cc: SubripReader::read", "src/web_vtt_reader.cc: WebVTTReader::read"])
prop("C115", "Scaling by 1 changes nothing",
     "Time::scale(1) gives the same time.",
     "all times from zero on at whole frame rates", "All times; the seconds go through binary floating point.",
     ["src/sub_time.cc: Time::scale, Time::all_as_seconds"])
prop("C116", "Moving and scaling keep the order",
     "Of two times at one rate, the one that is not later is still not later when both are scaled by the same factor, or when the same time is added to both.",
     "all pairs of times from zero on at whole frame rates, all factors from zero on that keep the times in range", "All pairs of times and all factors, through several floating-point roundings.",
     ["src/sub_time.cc: Time::scale, Time::add, Time::all_as_seconds"])
prop("C117", "Times can be added in either order",
     "a.add(b) and b.add(a) give the same seconds and frames at the same rate.",
     "all pairs of times from zero on at whole frame rates", "All pairs of times at all pairs of rates.",
     ["src/sub_time.cc: Time::add"])
prop("C118", "Adding nothing changes nothing",
     "Adding a time of zero gives the same time.",
     "all times from zero on at whole frame rates", "All times; the seconds go through milliseconds and binary floating point.",
     ["src/sub_time.cc: Time::add, Time::all_as_seconds"])
prop("C119", "What is converted to binary STL is kept",
     "Reading an SSA or binary STL file, collecting what was read, writing it as binary STL and reading that file gives every character that ISO 6937 has (or its substitute), in order of time, with the times it had to the nearest frame.",
     "all files that can be read, with positions on the screen and times from zero on, at 24, 25 and 30 frames a second, any number of blocks, whatever was converted before", "The whole way through five functions, for all files; long texts are cut into blocks in the middle of lines.",
     ["src/ssa_reader.cc: SSAReader", "src/stl_binary_reader.cc: STLBinaryReader", "src/collect.h: collect", "src/stl_binary_writer.cc: write_stl_binary"])

prop("C120", "Saving again what was saved changes nothing",
     "A binary STL file that was read, collected and written gives, when it is read, collected and written again with the same arguments, the same file, byte for byte.",
     "all binary STL files that can be read, whatever was converted before", "Twice through three functions, for all files; a difference of one byte each time would add up over the years that a file is edited.",
     ["src/stl_binary_reader.cc: STLBinaryReader::read", "src/collect.h: collect", "src/stl_binary_writer.cc: write_stl_binary"])

prop("C121", "What a program did before does not matter",
     "Reading a file, opening one, converting a text and writing subtitles give the same results, whatever the program has read, opened, converted or written before, also when those calls failed.",
     "all sequences of calls of the readers, reader_factory, the ISO 6937 conversions and write_stl_binary, and all files and subtitles", "Any sequence of any calls; the library keeps tables that every conversion may change.",
     ["src/iso6937.cc: iso6937_to_utf16, utf16_to_iso6937", "src/stl_binary_reader.cc: STLBinaryReader::read", "src/stl_binary_writer.cc: write_stl_binary", "src/reader_factory.cc: reader_factory"])

prop("C122", "A subtitle can be taken out, put in or moved without changing the others",
     "A file with some subtitles in the middle gives the subtitles of the file without them, unchanged and in order, with those of the middle in between; when two groups of subtitles change places in a file, so do the subtitles that are read, and nothing else changes.",
     "all files in every format, and all groups of whole subtitles in them", "Any file around any subtitles; the readers keep times, styles, rows and positions from one subtitle to the next.",
     ["src/subrip_reader.cc: SubripReader::read", "src/web_vtt_reader.cc: WebVTTReader::read", "src/ssa_reader.cc: SSAReader::read", "src/stl_text_reader.cc: STLTextReader::STLTextReader, maybe_push", "src/stl_binary_reader.cc: STLBinaryReader::read"])

prop("C123", "Changing the times of one subtitle changes nothing else",
     "When the times of one subtitle in a file are replaced by others, everything that was read of it has the new times and is otherwise the same, and all the other subtitles are read exactly as before.",
     "all files in every format, all subtitles in them and all pairs of times", "Any file around any text and any times; the readers keep the times in a state that later lines also use.",
     ["src/subrip_reader.cc: SubripReader::read", "src/web_vtt_reader.cc: WebVTTReader::read", "src/ssa_reader.cc: SSAReader::read", "src/stl_text_reader.cc: STLTextReader::STLTextReader", "src/stl_binary_reader.cc: STLBinaryReader::read"])

prop("C124", "The same cues mean the same in SubRip and WebVTT",
     "A SubRip file that is made into a WebVTT file (a header is put before it, and the commas in its timing lines become dots) gives the same subtitles.",
     "all SubRip files of cues with a counter, a timing line and text", "All files; the two readers are different programs that read lines, times and text in their own ways.",
     ["src/subrip_reader.cc: SubripReader::read, convert_line", "src/web_vtt_reader.cc: WebVTTReader::read"])

prop("C125", "Which styles of an SSA file matter",
     "A style whose name does not come up in the rest of the file, and which is not the one called Default, makes no difference. Styles with different names can change places. Of several styles with one name the last one counts. This holds for styles that can be read, and whatever the outcome of reading the file is.",
     "all SSA files, all lists of style fields in any order, and all styles at any place among the others", "Any styles in any order in any file; the reader keeps one table of them that every subtitle looks up.",
     ["src/ssa_reader.cc: SSAReader::read, Style"])

prop("C126", "The fields of an SSA file can be in any order",
     "When the keys of a Format line, and the values of every line under it, are put in another order, the same subtitles are read. (The text has to be the last field of a dialogue, because it may have commas in it.)",
     "all SSA files with a section of styles or of dialogues, all keys and values, all orders", "All orders of any fields, in files with any other content.",
     ["src/ssa_reader.cc: SSAReader::read, Style"])

prop("C127", "Collected subtitles stay as they are when they are collected again",
     "When collected subtitles are taken apart into pieces, each with the position of its line and the times of its subtitle, and these are collected, the result is the same subtitles, lines and blocks.",
     "all lists of pieces, all files in every format, and all sorting programs that the library may be given", "All lists; positions are compared in three different ways, depending on what both of them have.",
     ["src/collect.h: collect", "src/vertical_position.cc: operator==", "src/subtitle.cc: Subtitle::same_metadata, Line::same_metadata"])

prop("C128", "Readers do not invent times",
     "Every piece that a reader gives has the start and the end that one line (or block) of the file says, and the pieces come in the order of these lines.",
     "all files in every format that can be read", "All files; readers keep the times in a state that goes from line to line, so that they may come from the wrong one.",
     ["src/subrip_reader.cc: SubripReader::read", "src/web_vtt_reader.cc: WebVTTReader::read", "src/ssa_reader.cc: SSAReader::read, SSAReader::parse_time", "src/stl_text_reader.cc: STLTextReader::STLTextReader, time", "src/stl_binary_reader.cc: STLBinaryReader::read, get_timecode"])

prop("C129", "A subtitle does not end before it starts",
     "No piece that a reader gives, and no subtitle that collect() makes of them, has an end before its start.",
     "all files in every format that can be read, and all sorting programs that the library may be given", "All times in all files.",
     ["src/subrip_reader.cc: SubripReader::read", "src/web_vtt_reader.cc: WebVTTReader::read", "src/ssa_reader.cc: SSAReader::read", "src/stl_text_reader.cc: STLTextReader::STLTextReader", "src/stl_binary_reader.cc: STLBinaryReader::read", "src/collect.h: collect"])

prop("C130", "The numbers and names of subtitles do not matter",
     "The number line of a SubRip cue, the names of a WebVTT cue, the fields of an SSA dialogue that say neither when, where and how nor what (the layer, the speaker), and the group and subtitle numbers of the blocks of a binary STL file can be replaced by any others: reading gives the same subtitles, or the same error but for the lines of the file that it shows.",
     "all files in these formats, whatever the outcome of reading them, and all numbers and names", "All files and all numbers and names; the number line is read by the same loop as everything else and is kept for errors.",
     ["src/subrip_reader.cc: SubripReader::read", "src/web_vtt_reader.cc: WebVTTReader::read", "src/ssa_reader.cc: SSAReader::read", "src/stl_binary_reader.cc: STLBinaryReader::read"])

prop("C131", "User data in a binary STL file is not shown",
     "A block of a binary STL file with the extension block number FE, which EBU Tech 3264 reserves for user data, gives no subtitles.",
     "all binary STL files", "All files, with blocks of user data at any place.",
     ["src/stl_binary_reader.cc: STLBinaryReader::read"])

prop("C132", "The header of a binary STL file says how many characters its longest row has",
     "The field for the maximum number of characters in a row holds the number of characters of the longest line of the subtitles.",
     "all lists of subtitles and header values that can be written", "All texts: bytes and characters are the same number in the ASCII texts that tests use.",
     ["src/stl_binary_writer.cc: sub::write_stl_binary"])

prop("C133", "The header of a binary STL file says when its first subtitle starts",
     "The first in-cue time code of the header is the start of the first subtitle.",
     "all lists of subtitles and header values that can be written", "All times.",
     ["src/stl_binary_writer.cc: sub::write_stl_binary"])

prop("C134", "The texts in the header of a binary STL file are in its code page",
     "The titles, names and contact details that the writer puts in the header are written in the code page that the header says, and those that the reader gives are the UTF-8 of what the bytes mean in it.",
     "all header values that can be written, all binary STL files that can be read, code page 850", "All texts; in ASCII the encodings agree.",
     ["src/stl_binary_writer.cc: sub::write_stl_binary, put_string", "src/stl_binary_reader.cc: STLBinaryReader::read, get_string"])

if __name__ == "__main__":
    here = os.path.dirname(os.path.abspath(__file__))
    with open(os.path.join(here, "..", "properties.jsonl"), "w") as f:
        for p in P:
            f.write(json.dumps(p) + "\n")
    print(len(P))
