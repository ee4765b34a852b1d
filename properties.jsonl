{"id": "C01", "title": "A Time built from hours, minutes, seconds and milliseconds gives the same components back", "statement": "For Time t = Time::from_hms(h,m,s,ms) with 0<=m,s<60 and h>=0 and no int overflow, t.hours()==h, t.minutes()==m, t.seconds()==s and t.milliseconds()==ms, although milliseconds() goes through double-precision arithmetic and rint.", "quantifier": "all h, m, s, ms that fit an int", "why_tests_cant": "The floating point path has 2^31 inputs per component; a test only samples it.", "anchors": ["src/sub_time.cc: Time::from_hms, hours, minutes, seconds, milliseconds, frames_at"]}
{"id": "C02", "title": "Comparing two Times with the same rate agrees with real time", "statement": "For Times a, b that have the same positive frame rate (or both no rate) and in-range frame counts, a<b, a>b and a==b are respectively the comparison of the instants they denote (seconds + frames/rate).", "quantifier": "all pairs of normalised Times with one positive rate, whose products do not overflow", "why_tests_cant": "Infinitely many pairs of instants and rates.", "anchors": ["src/sub_time.cc: operator<, operator>, operator=="]}
{"id": "C03", "title": "Comparing two Times with different rates agrees with real time", "statement": "For Times a, b with known (possibly different) positive frame rates, a<b iff the instant of a is before the instant of b, and a==b iff they are the same instant.", "quantifier": "all pairs of Times with known rates", "why_tests_cant": "A test checks a few pairs, and the existing ones do not show the error.", "anchors": ["src/sub_time.cc: operator<, operator>, operator=="]}
{"id": "C04", "title": "Which comparisons throw UnknownFrameRateError", "statement": "a==b and a!=b throw UnknownFrameRateError exactly when one of the two Times has a rate and the other has not; a<b and a>b throw exactly when additionally their whole seconds are equal.  No comparison throws anything else.", "quantifier": "all pairs of Times", "why_tests_cant": "A universally quantified statement about error behaviour.", "anchors": ["src/sub_time.cc: operator<, operator>, operator==, operator!="]}
{"id": "C05", "title": "Time comparison is a strict weak order, so sorting by start time is well defined", "statement": "On Times whose rates are all present with positive denominators (or all absent), operator< is irreflexive, transitive, and incomparability is transitive; exactly one of a<b, a==b, a>b holds; a!=b is the negation of a==b; a>b is b<a.", "quantifier": "all triples of Times for which the comparison is defined", "why_tests_cant": "std::stable_sort in collect() has undefined behaviour if this fails for any triple.", "anchors": ["src/sub_time.cc: operator<, operator>, operator==, operator!=", "src/collect.h: collect"]}
{"id": "C06", "title": "frames_at gives the nearest frame number", "statement": "t.frames_at(r) is the integer nearest (ties to even) to frames*den*r.num/(num*r.den), as exact rational arithmetic, for all positive rates: the rounding of the intermediate doubles never changes the answer.", "quantifier": "all frame counts, source rates and target rates whose int product does not overflow and whose exact dividend is below 2^52", "why_tests_cant": "Double rounding errors occur at isolated points that sampling misses.", "anchors": ["src/sub_time.cc: Time::frames_at"]}
{"id": "C07", "title": "Frame numbers survive conversion to milliseconds and back", "statement": "For an integer rate 1<=fps<=1000 and frame number 0<=f<fps, converting f at fps to milliseconds and that millisecond count back to fps gives f.", "quantifier": "all integer rates up to 1000 and all frames", "why_tests_cant": "A numeric claim over all rates and frames.", "anchors": ["src/sub_time.cc: Time::frames_at, milliseconds, from_hms, from_hmsf"]}
{"id": "C08", "title": "from_frames splits a frame count exactly", "statement": "Time::from_frames(f,r) with integer rate r and f>=0 gives seconds s and frames k with f = s*r + k and 0<=k<r; it raises ProgrammingError when the rate is not a whole number or has zero denominator.", "quantifier": "all frame counts and rates", "why_tests_cant": "Universally quantified arithmetic.", "anchors": ["src/sub_time.cc: Time::from_frames"]}
{"id": "C09", "title": "Time::add is exact addition at the finer rate", "statement": "For Times with integer rates, a.add(b) denotes exactly the sum of the instants, whenever that sum is representable at the larger of the two rates.", "quantifier": "all pairs of Times", "why_tests_cant": "Truncation of a double product is wrong only at scattered points.", "anchors": ["src/sub_time.cc: Time::add, all_as_seconds", "src/rational.cc: max"]}
{"id": "C10", "title": "Time::scale and frames_at give a normalised frame count", "statement": "The frame count of a Time after scale(f) (and the value of t.frames_at(r)) is always below the rate, so that it is a legal frame number; the scaled Time is the nearest frame to the scaled instant.", "quantifier": "all times, factors and target rates", "why_tests_cant": "Rounding up happens only near the end of a second.", "anchors": ["src/sub_time.cc: Time::scale, Time::frames_at"]}
{"id": "C11", "title": "collect loses, duplicates and reorders nothing", "statement": "For every list of raw subtitles whose times are comparable, the blocks of collect()'s result, read in order, are exactly the input's text/format pieces stably sorted by start time: every piece appears exactly once, and pieces with equal start keep their input order.", "quantifier": "all lists of raw subtitles and every standard-conforming std::stable_sort", "why_tests_cant": "Lists are unbounded and the sort algorithm is implementation defined.", "anchors": ["src/collect.h: collect", "src/subtitle.cc: Subtitle, Line, Block constructors"]}
{"id": "C12", "title": "collect groups correctly and maximally", "statement": "In collect()'s result every subtitle has at least one line and every line at least one block; all pieces in a subtitle have the subtitle's from, to, fade_up and fade_down; all pieces of a line have the line's vertical position; neighbouring subtitles differ in from/to/fades and neighbouring lines in a subtitle differ in vertical position; subtitles are in non-decreasing start order.", "quantifier": "all lists of raw subtitles with comparable times", "why_tests_cant": "Unbounded inputs.", "anchors": ["src/collect.h: collect", "src/subtitle.cc: Subtitle::same_metadata", "src/vertical_position.cc: operator=="]}
{"id": "C13", "title": "collect never silently mixes timed and untimed rates", "statement": "If some pieces have a known frame rate in their start time and others do not, collect throws UnknownFrameRateError, whatever order the sort compares them in.", "quantifier": "all lists with mixed rate knowledge, every conforming sort", "why_tests_cant": "Depends on which comparisons the sort makes.", "anchors": ["src/collect.h: collect", "src/sub_time.cc: operator<, operator=="]}
{"id": "C14", "title": "Pieces with the same times end up in one subtitle", "statement": "Any two pieces with equal from, to, fade_up and fade_down are put in the same Subtitle by collect.", "quantifier": "all lists of raw subtitles", "why_tests_cant": "The failure needs three pieces interleaved in a particular way.", "anchors": ["src/collect.h: collect"]}
{"id": "C15", "title": "ISO 6937 text survives encoding and decoding", "statement": "For every string of characters that ISO 6937 can represent (other than bare combining accents), decoding the encoded bytes gives the string back; with substituted characters (en dash, hyphens, low quotes, prime) it gives the documented substitute.", "quantifier": "all strings over all code points", "why_tests_cant": "There are unboundedly many strings; adjacent characters interact because accents are two-byte sequences.", "anchors": ["src/iso6937.cc: utf16_to_iso6937, iso6937_to_utf16", "src/iso6937_tables.cc: make_iso6937_tables"]}
{"id": "C16", "title": "Text can never inject STL control codes", "statement": "No byte that utf16_to_iso6937 produces is an STL control code (below 0x08 or 0x80-0x9f), so no subtitle text can switch italics, break a row or end the text field of a written STL file.", "quantifier": "all strings over all code points", "why_tests_cant": "Quantifies over every possible text.", "anchors": ["src/iso6937.cc: utf16_to_iso6937", "src/stl_binary_writer.cc: make_tti_blocks"]}
{"id": "C17", "title": "Conversions do not depend on what was converted before", "statement": "The result of each ISO 6937 conversion is the same whatever sequence of conversions ran before it in the process, although decoding changes the global tables; the only character whose encoding can be affected is U+0000.", "quantifier": "all histories (finite sequences of encode and decode calls)", "why_tests_cant": "Hidden global state: a test would have to enumerate all call histories.", "anchors": ["src/iso6937.cc: iso6937_to_utf16, utf16_to_iso6937, find", "src/iso6937_tables.cc"]}
{"id": "C18", "title": "Decoding arbitrary bytes is memory safe", "statement": "iso6937_to_utf16 never has undefined behaviour, whatever bytes it is given.", "quantifier": "all byte strings", "why_tests_cant": "Needs a particular two-byte sequence that no test file has.", "anchors": ["src/iso6937.cc: iso6937_to_utf16"]}
{"id": "C19", "title": "Encoding works character by character and drops only what is not representable", "statement": "The encoding of a string is the concatenation of the encodings of its characters, each at most two bytes; a character is dropped iff it is in no table and has no substitute.", "quantifier": "all strings", "why_tests_cant": "Unbounded inputs.", "anchors": ["src/iso6937.cc: utf16_to_iso6937"]}
{"id": "C20", "title": "Every STL code table is a bijection between file codes and meanings", "statement": "For every display standard, language group, language, timecode status, comment and justification value, the file code written for it is read back as the same value, distinct values have distinct codes, and descriptions map back to the value they describe.", "quantifier": "all enumerators of all six tables", "why_tests_cant": "The property is about every entry and every pair of entries.", "anchors": ["src/stl_binary_tables.cc", "src/stl_binary_tables.h"]}
{"id": "C21", "title": "Unknown codes in an STL file are rejected", "statement": "Reading a table code that is not in the table throws STLError naming the field and the code; no unknown code is mapped to some value.", "quantifier": "all byte strings as code", "why_tests_cant": "All possible codes.", "anchors": ["src/stl_binary_tables.cc: file_to_enum", "src/stl_binary_reader.cc: STLBinaryReader::read"]}
{"id": "C22", "title": "A UTF-8 STL file is reported as UTF-8", "statement": "The language group code U8 is reported as the UTF-8 language group.", "quantifier": "the U8 code of the language group table", "why_tests_cant": "Needs relating the table to its intent; no test file uses it.", "anchors": ["src/stl_binary_tables.cc: STLBinaryTables"]}
{"id": "C23", "title": "A written STL file is structurally valid", "statement": "write_stl_binary writes one 1024-byte header and then whole 128-byte TTI blocks; the header's TTI and subtitle counts are the real numbers of blocks and subtitles (up to the 99999 the fields can hold), and each block holds the in/out times, vertical position, justification and 112 bytes of text or filler.", "quantifier": "all subtitle lists and all header values that are accepted", "why_tests_cant": "Unbounded inputs.", "anchors": ["src/stl_binary_writer.cc: write_stl_binary, make_tti_blocks"]}
{"id": "C24", "title": "Over-long header strings are refused before anything is written", "statement": "write_stl_binary raises ProgrammingError exactly when one of the header strings is longer than its field or the revision number is over 99, and otherwise every header string is found in its field padded with spaces.", "quantifier": "all header strings", "why_tests_cant": "Unbounded strings.", "anchors": ["src/stl_binary_writer.cc: write_stl_binary, put_string"]}
{"id": "C25", "title": "Header counters are right however large the file", "statement": "The TTI block count, subtitle count and longest-line fields of a written file equal the real values.", "quantifier": "all subtitle lists, including ones over 99999 blocks or with lines of 100 or more bytes", "why_tests_cant": "A counter example needs a huge file or a very long line.", "anchors": ["src/stl_binary_writer.cc: put_int_as_string, write_stl_binary"]}
{"id": "C26", "title": "All of a subtitle's text is written, in order", "statement": "Concatenating the text fields of a subtitle's TTI blocks and removing the filler gives its encoded text with row breaks and style codes, and every block but the last has an extension number that says so.", "quantifier": "all subtitles of any length", "why_tests_cant": "Unbounded text, chunk boundaries.", "anchors": ["src/stl_binary_writer.cc: make_tti_blocks"]}
{"id": "C27", "title": "Frame fields in a written STL file are legal", "statement": "The frame byte of each timecode in a TTI block is less than the frame rate.", "quantifier": "all subtitle times and frame rates", "why_tests_cant": "Fails only in the last half frame of a second.", "anchors": ["src/stl_binary_writer.cc: put_int_as_int, make_tti_blocks"]}
{"id": "C28", "title": "Any collected subtitles can be written as STL", "statement": "Subtitles read by any reader in the library and passed through collect can be given to write_stl_binary without undefined behaviour.", "quantifier": "all reader outputs", "why_tests_cant": "Composition of components over all inputs.", "anchors": ["src/stl_binary_writer.cc: vertical_position, make_tti_blocks", "src/subrip_reader.cc", "src/vertical_position.cc"]}
{"id": "C29", "title": "Reading a binary STL file either succeeds or raises STLError", "statement": "For every byte stream, STLBinaryReader returns or throws STLError; it never reads out of bounds and has no undefined behaviour apart from the ISO 6937 decoder's.", "quantifier": "all byte streams", "why_tests_cant": "Quantifies over all file contents.", "anchors": ["src/stl_binary_reader.cc: STLBinaryReader::read, InputReader"]}
{"id": "C30", "title": "Row numbers are corrected into range", "statement": "After reading, every row number is at most the maximum number of rows, differences between rows are preserved, and no row number is negative.", "quantifier": "all files", "why_tests_cant": "Depends on the maximum over the whole file.", "anchors": ["src/stl_binary_reader.cc: STLBinaryReader::read"]}
{"id": "C31", "title": "Comment blocks produce no subtitles", "statement": "TTI blocks marked as comment contribute no subtitle and change no other block's subtitles.", "quantifier": "all files", "why_tests_cant": "All placements of comment blocks in all files.", "anchors": ["src/stl_binary_reader.cc: STLBinaryReader::read"]}
{"id": "C32", "title": "Writing and reading back preserves styled text", "statement": "For subtitles whose encoded text fits one TTI block, reading the written file gives the same characters on the same rows with the same italic and underline state (after ISO 6937 substitution), in the same order.", "quantifier": "all lists of such subtitles", "why_tests_cant": "Composition of writer and reader over all inputs.", "anchors": ["src/stl_binary_writer.cc: write_stl_binary", "src/stl_binary_reader.cc: STLBinaryReader::read"]}
{"id": "C33", "title": "Writing and reading back preserves times", "statement": "For frame rates 24, 25 and 30, times that fall on a frame are read back as exactly the same instant, and other times within half a frame.", "quantifier": "all times below 256 hours", "why_tests_cant": "All times and rates.", "anchors": ["src/stl_binary_writer.cc: make_tti_blocks", "src/stl_binary_reader.cc: get_timecode", "src/stl_util.cc"]}
{"id": "C34", "title": "Writing and reading back preserves long text", "statement": "The styled text round trip also holds for subtitles whose text needs several TTI blocks.", "quantifier": "all subtitles of more than 112 bytes", "why_tests_cant": "Needs long styled text with the break at a particular place.", "anchors": ["src/stl_binary_writer.cc: make_tti_blocks", "src/stl_binary_reader.cc: STLBinaryReader::read"]}
{"id": "C35", "title": "Every frame rate the format code can express is written and read back", "statement": "stl_frame_rate_to_dfc followed by stl_dfc_to_frame_rate gives the frame rate back, and the reader uses that rate for its times.", "quantifier": "all frame rates", "why_tests_cant": "All float values.", "anchors": ["src/stl_util.cc: stl_frame_rate_to_dfc, stl_dfc_to_frame_rate", "src/stl_binary_reader.cc: STLBinaryReader::read"]}
{"id": "C36", "title": "SubRip files are read back exactly", "statement": "Rendering any list of cues (times, plain text lines) as a SubRip file and reading it gives, in order, one raw subtitle per text line with the cue's times, that text and consecutive line numbers from 0.", "quantifier": "all lists of cues with plain text", "why_tests_cant": "Unbounded files.", "anchors": ["src/subrip_reader.cc: SubripReader::read, convert_time, convert_line"]}
{"id": "C37", "title": "SubRip times are parsed exactly or rejected", "statement": "convert_time accepts exactly strings of three colon-separated fields, the last with one decimal separator, each part a decimal int, and returns the Time with those parts; every other string raises SubripError naming what was expected.", "quantifier": "all strings", "why_tests_cant": "All strings.", "anchors": ["src/subrip_reader.cc: SubripReader::convert_time"]}
{"id": "C38", "title": "SubRip formatting tags style exactly the text they enclose", "statement": "For text with bold, italic, underline and font colour tags (angle or brace form, any case), the output pieces concatenate to the text without tags, and every character has exactly the bold/italic/underline/colour that the tags before it set.", "quantifier": "all tagged texts", "why_tests_cant": "Unbounded nesting and interleaving.", "anchors": ["src/subrip_reader.cc: SubripReader::convert_line, maybe_content"]}
{"id": "C39", "title": "Reading a SubRip file never has undefined behaviour", "statement": "For every input SubripReader returns or throws an exception derived from std::exception.", "quantifier": "all inputs", "why_tests_cant": "Quantifies over all files; the failing ones are legal-looking.", "anchors": ["src/subrip_reader.cc: SubripReader::convert_line"]}
{"id": "C40", "title": "SubRip reading from a FILE and from a string agree", "statement": "SubripReader(FILE*) and SubripReader(string) give the same result on the same content.", "quantifier": "all contents", "why_tests_cant": "Differs only on long lines or NUL bytes.", "anchors": ["src/util.cc: get_line_string, get_line_file", "src/subrip_reader.cc: SubripReader"]}
{"id": "C41", "title": "SubRip errors point to the right place", "statement": "A SubripError raised while reading reports the number of the offending line, the offending text, and as context only lines of the file around that line, at most seven, in file order.", "quantifier": "all inputs that cause an error", "why_tests_cant": "All malformed files.", "anchors": ["src/subrip_reader.cc: SubripReader::read", "src/exceptions.cc"]}
{"id": "C42", "title": "Right-to-left embedding marks are removed from SubRip text", "statement": "No text returned by SubripReader contains U+202B.", "quantifier": "all inputs", "why_tests_cant": "Depends on the position of tags relative to the mark.", "anchors": ["src/subrip_reader.cc: SubripReader::convert_line"]}
{"id": "C43", "title": "WebVTT files are read back exactly", "statement": "Rendering any list of cues with optional identifiers and comments as a WebVTT file and reading it gives one raw subtitle per text line with the cue's times and consecutive line numbers, and nothing for comments and identifiers.", "quantifier": "all lists of cues, identifiers and comments", "why_tests_cant": "Unbounded files.", "anchors": ["src/web_vtt_reader.cc: WebVTTReader::read"]}
{"id": "C44", "title": "A file without a WEBVTT header is rejected", "statement": "Every non-empty input whose first line (after BOM removal) does not start with WEBVTT raises WebVTTHeaderError, and no other input does.", "quantifier": "all inputs", "why_tests_cant": "All inputs.", "anchors": ["src/web_vtt_reader.cc: WebVTTReader::read"]}
{"id": "C45", "title": "Reading a WebVTT file is safe", "statement": "For every input the reader returns or throws a sub exception, apart from int overflow in the hours of a time.", "quantifier": "all inputs", "why_tests_cant": "All inputs.", "anchors": ["src/web_vtt_reader.cc: WebVTTReader::read"]}
{"id": "C46", "title": "SSA text may contain commas", "statement": "The Text field of a Dialogue line is everything after the field separator, commas included, whatever it contains; the other fields are split at commas.", "quantifier": "all Dialogue bodies and formats whose last field is Text", "why_tests_cant": "All texts.", "anchors": ["src/ssa_reader.cc: SSAReader::read"]}
{"id": "C47", "title": "SSA override tags style exactly the text after them", "statement": "For lines with italic, bold, underline, font size, colour and alignment tags, output pieces concatenate to the text without tags and line breaks, and every character carries the style set by the tags before it.", "quantifier": "all texts", "why_tests_cant": "Unbounded interleavings.", "anchors": ["src/ssa_reader.cc: SSAReader::parse_line, parse_tag"]}
{"id": "C48", "title": "SSA line breaks are laid out evenly in reading order", "statement": "The number of line breaks before a piece determines its vertical position: bottom-referenced pieces are lower by one line size per later break, top-referenced ones by one line size per earlier break, centred ones symmetric about the centre.", "quantifier": "all texts and styles", "why_tests_cant": "All texts.", "anchors": ["src/ssa_reader.cc: SSAReader::parse_line"]}
{"id": "C49", "title": "SSA alignment codes map to the documented corner", "statement": "\\an1..9 and the Alignment style field select the horizontal and vertical reference of the numeric keypad layout.", "quantifier": "all alignment codes and styles", "why_tests_cant": "All codes in both version dialects.", "anchors": ["src/ssa_reader.cc: parse_tag, Style"]}
{"id": "C50", "title": "SSA colours are read in the right byte order", "statement": "For every r, g, b in 0..255, the colour written &Hbbggrr (any alpha byte in front) is read as r/255, g/255, b/255.", "quantifier": "all colours", "why_tests_cant": "2^24 colours and all spellings.", "anchors": ["src/ssa_reader.cc: h_colour"]}
{"id": "C51", "title": "SSA times are centiseconds", "statement": "parse_time of h:mm:ss.cc gives h hours, mm minutes, ss seconds and 10*cc milliseconds.", "quantifier": "all times", "why_tests_cant": "All times.", "anchors": ["src/ssa_reader.cc: SSAReader::parse_time"]}
{"id": "C52", "title": "Text STL start times are parsed whole", "statement": "In a text STL line \"from, to, text\" the start time is the whole text before the first comma.", "quantifier": "all lines", "why_tests_cant": "The existing tests all have a space before the comma.", "anchors": ["src/stl_text_reader.cc: STLTextReader"]}
{"id": "C53", "title": "Text STL lines are numbered consecutively", "statement": "The k-th line of a multi-line text STL subtitle (separated by |) has line number k.", "quantifier": "all subtitles with any number of lines", "why_tests_cant": "Needs three or more lines, or style changes within a line.", "anchors": ["src/stl_text_reader.cc: STLTextReader, maybe_push"]}
{"id": "C54", "title": "No text STL line is lost", "statement": "Every well-formed subtitle line of the input produces its text.", "quantifier": "all inputs", "why_tests_cant": "Fails only for a last line without newline.", "anchors": ["src/stl_text_reader.cc: STLTextReader"]}
{"id": "C55", "title": "Reader choice depends only on name and first bytes", "statement": "reader_factory picks the SubRip reader for .srt, binary STL for .stl files with STL at offset 3, text STL for other .stl files, in any letter case, and null otherwise.", "quantifier": "all file names and contents", "why_tests_cant": "All names and contents.", "anchors": ["src/reader_factory.cc: reader_factory"]}
{"id": "C56", "title": "Dumped text has matching style tags", "statement": "In dump()'s output each line's <i> and <u> are each opened and closed alternately, ending closed, and removing tags gives the text of the blocks.", "quantifier": "all subtitle lists", "why_tests_cant": "Unbounded.", "anchors": ["src/util.cc: dump"]}
{"id": "C57", "title": "Numbers are parsed the same in every locale", "statement": "raw_convert<float> and raw_convert<int> give the same value whatever the decimal separator of the process locale, for text that does not itself contain that separator.", "quantifier": "all texts and all one-character decimal separators", "why_tests_cant": "All locales.", "anchors": ["src/raw_convert.cc: make_local", "src/locale_convert.cc"]}
{"id": "C58", "title": "String::compose substitutes each argument at its own marker", "statement": "compose(fmt,a1..an) replaces every %k by ak and leaves the rest of fmt alone.", "quantifier": "all formats and arguments, including empty ones", "why_tests_cant": "Depends on argument values.", "anchors": ["src/compose.hpp: Composition"]}
{"id": "C59", "title": "Equality of positions is an equivalence and agrees with geometry", "statement": "VerticalPosition and HorizontalPosition equality is reflexive, symmetric and transitive.", "quantifier": "all positions", "why_tests_cant": "All triples.", "anchors": ["src/vertical_position.cc: operator==", "src/horizontal_position.cc: operator=="]}
{"id": "C60", "title": "Vertical order follows the screen", "statement": "For positions that are fully specified, VerticalPosition::operator< is the order of the distance from the top of the screen, and is a strict weak order.", "quantifier": "all specified positions", "why_tests_cant": "All float values and references.", "anchors": ["src/vertical_position.cc: fraction_from_screen_top, operator<"]}
{"id": "C61", "title": "all_as_seconds is accurate to half a millisecond", "statement": "t.all_as_seconds() differs from the instant t denotes (seconds + frames/rate) by at most half a millisecond plus one microsecond.", "quantifier": "all Times with a positive rate and a frame count within one second", "why_tests_cant": "Two double roundings and one rounding to milliseconds; all rates.", "anchors": ["src/sub_time.cc: Time::all_as_seconds, milliseconds"]}
{"id": "C62", "title": "Hexadecimal colours are read exactly", "statement": "Colour::from_rgb_hex on rrggbb (and from_rgba_hex on rrggbbaa) in hex digits of either case gives the floats nearest to rr/255, gg/255 and bb/255, whatever the alpha; strings too short to hold the components, or not starting with a digit, raise XMLError.", "quantifier": "all digit strings and all other strings", "why_tests_cant": "16^8 inputs and unbounded junk.", "anchors": ["src/colour.cc: Colour::from_rgb_hex, from_rgba_hex"]}
{"id": "C63", "title": "Font sizes convert between points and proportion without loss", "statement": "A size set in points is reported unchanged in points, and as the float nearest points/height as a proportion; taking the proportion and converting back at the same height gives the same number of points.", "quantifier": "all sizes and screen heights", "why_tests_cant": "Float rounding followed by truncation, for every pair of ints.", "anchors": ["src/font_size.cc: FontSize::proportional, points, specified"]}
{"id": "C64", "title": "Equality of blocks, lines and subtitles looks at every field", "statement": "Two blocks are equal iff all their fields are (floats by value); two lines iff positions and blocks are, in order; two subtitles iff times, fades and lines are.", "quantifier": "all pairs of blocks, lines and subtitles", "why_tests_cant": "Every combination of fields and list lengths.", "anchors": ["src/subtitle.cc: operator=="]}
{"id": "C65", "title": "The ISO 6937 decoder agrees with the standard", "statement": "Bytes that ISO 6937 assigns a character to decode to that Unicode character, an accent byte followed by a letter decodes to the letter with that accent (by the Unicode canonical compositions), and a sequence of bytes has only one meaning.", "quantifier": "all byte strings and all process histories", "why_tests_cant": "All byte strings; state shared by all conversions.", "anchors": ["src/iso6937.cc: iso6937_to_utf16", "src/iso6937_tables.cc: make_iso6937_tables"]}
{"id": "C66", "title": "Reading a binary STL file and writing it again keeps every row", "statement": "A subtitle that STLBinaryReader puts on row k of n is written by write_stl_binary in the same place: a file written by the library and read back can be written again with every subtitle on its row.", "quantifier": "all rows and all maximum row counts", "why_tests_cant": "Every row of every possible row count goes through float arithmetic and truncation.", "anchors": ["src/stl_binary_writer.cc: vertical_position", "src/stl_binary_reader.cc: STLBinaryReader::read"]}
{"id": "C67", "title": "UTF-8 text is converted without loss", "statement": "Converting valid UTF-8 to wide characters gives the encoded characters, converting back gives the same bytes, and malformed input never gives anything but Unicode characters.", "quantifier": "all byte strings and all wide strings", "why_tests_cant": "All strings, including every boundary of the encoding.", "anchors": ["src/stl_binary_reader.cc: utf_to_utf", "src/stl_binary_writer.cc: utf_to_utf", "src/subrip_reader.cc: fix_multiple_encoding"]}
{"id": "C68", "title": "Reading a binary STL file gives exactly what its bytes mean", "statement": "STLBinaryReader returns header fields and subtitles if and only if they are the ones the file's bytes mean under EBU Tech 3264: every header field from its position, per block the in and out times, rows from the vertical position and row breaks, colours, italics and underline from the control codes, and text by ISO 6937.", "quantifier": "all byte streams, all process histories", "why_tests_cant": "All files: any number of blocks and any order of control codes.", "anchors": ["src/stl_binary_reader.cc: STLBinaryReader::read"]}
{"id": "C69", "title": "TTI blocks carry the number of their subtitle", "statement": "In a file written by write_stl_binary, the subtitle number field of every TTI block is the position of its subtitle, so that blocks of different subtitles can be told apart.", "quantifier": "all subtitle lists", "why_tests_cant": "A claim about every block of every file.", "anchors": ["src/stl_binary_writer.cc: make_tti_blocks"]}
{"id": "C70", "title": "SSA override tags in SubRip text style only the text after them", "statement": "In a SubRip line an SSA tag in braces, such as {\\i1}, changes the look of the text after it and not of the text before it.", "quantifier": "all lines with SSA tags", "why_tests_cant": "All positions of all tags in all lines.", "anchors": ["src/subrip_reader.cc: SubripReader::convert_line", "src/ssa_reader.cc: SSAReader::parse_tag"]}
{"id": "C71", "title": "Reading a SubRip file gives exactly what its text means", "statement": "SubripReader returns subtitles if and only if they are the ones the text means: counter, timing and text lines in cues, LINE SEPARATORs, tags, colours and SSA tags; it throws the stated exception if and only if a line has the stated fault, and has undefined behaviour only in the stated cases.", "quantifier": "all strings", "why_tests_cant": "All files, well formed or not.", "anchors": ["src/subrip_reader.cc: SubripReader::read, convert_line, convert_time, maybe_content", "src/util.cc: get_line_string, remove_unicode_bom"]}
{"id": "C72", "title": "Timing lines of the WebVTT standard are read", "statement": "Every cue timing line the WebVTT standard allows, with or without hours and with any cue settings after it, is read and its times are the ones it says.", "quantifier": "all timing lines of the standard", "why_tests_cant": "All times, spacings and combinations of settings.", "anchors": ["src/web_vtt_reader.cc: WebVTTReader::read", "src/subrip_reader.cc: SubripReader::convert_time"]}
{"id": "C73", "title": "Reading a WebVTT file is the same as reading its content", "statement": "The FILE constructor gives the same result as the string constructor on the file's content.", "quantifier": "all byte streams", "why_tests_cant": "All lengths and alignments of lines against the buffer.", "anchors": ["src/web_vtt_reader.cc: WebVTTReader::WebVTTReader", "src/util.cc: get_line_file"]}
{"id": "C74", "title": "WebVTT errors show the offending text in its context", "statement": "Every WebVTTError carries text that is in the line it complains about, and the lines up to that line (and perhaps the next ones) as context.", "quantifier": "all inputs that raise it", "why_tests_cant": "All malformed files.", "anchors": ["src/web_vtt_reader.cc: WebVTTReader::read"]}
{"id": "C75", "title": "Reading a WebVTT file gives exactly what its text means", "statement": "WebVTTReader returns subtitles if and only if they are the ones the text means: header, notes, identifiers, cues with timing lines and text; it throws the stated exception if and only if a line has the stated fault, and has undefined behaviour only in the stated case.", "quantifier": "all strings", "why_tests_cant": "All files, well formed or not.", "anchors": ["src/web_vtt_reader.cc: WebVTTReader::read"]}
{"id": "C76", "title": "Reading an SSA file gives exactly what its text means", "statement": "SSAReader returns subtitles if and only if they are the ones the text means: sections, PlayRes, styles, event formats, dialogue fields, and texts with tags and line breaks; it throws the stated exception if and only if a line has the stated fault.", "quantifier": "all strings", "why_tests_cant": "All files, well formed or not.", "anchors": ["src/ssa_reader.cc: SSAReader::read, parse_line, parse_tag, Style"]}
{"id": "C77", "title": "Reading an SSA file is the same as reading its content", "statement": "The FILE constructor gives the same result as the string constructor on the file's content.", "quantifier": "all byte streams", "why_tests_cant": "All lengths and alignments of lines against the buffer.", "anchors": ["src/ssa_reader.cc: SSAReader::SSAReader", "src/util.cc: get_line_file"]}
{"id": "C78", "title": "Reading an SSA file never has undefined behaviour", "statement": "SSAReader either returns subtitles or throws, whatever the text.", "quantifier": "all strings", "why_tests_cant": "All numbers in all fields.", "anchors": ["src/ssa_reader.cc: SSAReader::read, parse_time", "src/raw_convert.cc: raw_convert", "src/sub_time.cc: Time::from_hms"]}
{"id": "C79", "title": "SSA positions are where the tag says", "statement": "Text after \\pos(x,y) has horizontal position x / PlayResX from the left and vertical position y / PlayResY from the top, for any decimal numbers x and y.", "quantifier": "all positions, screens and styles", "why_tests_cant": "All numbers and all margins.", "anchors": ["src/ssa_reader.cc: SSAReader::parse_tag, SSAReader::parse_line"]}
{"id": "C80", "title": "Alignments in [V4 Styles] have the meaning they have in SSA", "statement": "In [V4 Styles], Alignment 1 to 3 is left, centre and right at the bottom, 5 to 7 at the top, and 9 to 11 in the middle.", "quantifier": "all styles", "why_tests_cant": "All alignment codes in all styles.", "anchors": ["src/ssa_reader.cc: Style::Style"]}
{"id": "C81", "title": "Decimal numbers are read as the nearest float", "statement": "raw_convert<float> of a decimal number, with or without sign, fraction and exponent, and whatever follows it, gives the float nearest to it (an infinity if it is too large); likewise hexadecimal numbers; a text that is no number gives 0.", "quantifier": "all texts", "why_tests_cant": "All texts: numbers of any length, hexadecimal ones, overflow, infinities, and what is no number.", "anchors": ["src/raw_convert.cc: raw_convert"]}
{"id": "C82", "title": "Reading a text STL file gives exactly what its text means", "statement": "STLTextReader returns subtitles if and only if they are the ones the text means: settings, comments, subtitle lines with two times, and texts with | and ^B, ^I and ^U.", "quantifier": "all strings", "why_tests_cant": "All files, well formed or not.", "anchors": ["src/stl_text_reader.cc: STLTextReader::STLTextReader, time, set, maybe_push"]}
{"id": "C83", "title": "Why reading a text STL file stops", "statement": "STLTextReader throws bad_lexical_cast, or has undefined behaviour, exactly when a line has a field that is not a number, or a time that does not fit in int seconds.", "quantifier": "all strings", "why_tests_cant": "All malformed files.", "anchors": ["src/stl_text_reader.cc: STLTextReader::time, set", "src/sub_time.cc: Time::from_hmsf"]}
{"id": "C84", "title": "Reading a text STL file never has undefined behaviour", "statement": "STLTextReader either returns subtitles or throws, whatever the text.", "quantifier": "all strings", "why_tests_cant": "All numbers in all fields.", "anchors": ["src/stl_text_reader.cc: STLTextReader::time", "src/sub_time.cc: Time::from_hmsf"]}
{"id": "C85", "title": "Times are printed so that they can be read", "statement": "Writing a Time to a stream gives hours, minutes, seconds (two digits each) and frames, with the rate if there is one; without a rate the text is a time that the text STL reader reads as the same time.", "quantifier": "all times", "why_tests_cant": "All times of any sign and size.", "anchors": ["src/sub_time.cc: operator<<, Time::hours, Time::minutes, Time::seconds", "src/stl_text_reader.cc: STLTextReader::time"]}
{"id": "C86", "title": "dump() shows everything that was read", "statement": "dump() writes each metadata entry, and for every subtitle that collect() makes its number, its times, and each line with its position and text; if collect() throws so does dump().", "quantifier": "all readers", "why_tests_cant": "Unbounded lists.", "anchors": ["src/util.cc: dump"]}
{"id": "C87", "title": "Header values come back", "statement": "Reading a file that was written gives the titles, names, contact details, publisher and editor (padded with spaces to their fields), the dates, country, language and revision number that were given, and the right numbers of blocks and subtitles.", "quantifier": "all lists of subtitles and header values that can be written in fewer than 100000 blocks", "why_tests_cant": "All header values, all files.", "anchors": ["src/stl_binary_writer.cc: write_stl_binary", "src/stl_binary_reader.cc: STLBinaryReader::read"]}
{"id": "C88", "title": "Every file that is written can be read", "statement": "STLBinaryReader reads every file that write_stl_binary writes, without exceptions or undefined behaviour, and gives in order the pieces of each subtitle's own blocks.", "quantifier": "all lists of subtitles and header values that can be written in fewer than 100000 blocks", "why_tests_cant": "All texts, styles, rows and lengths.", "anchors": ["src/stl_binary_writer.cc: write_stl_binary", "src/stl_binary_reader.cc: STLBinaryReader::read"]}
{"id": "C89", "title": "Proportional positions are printed to six significant figures", "statement": "dump() prints a proportional position as the decimal number nearest to it with six significant figures, without zeros at the end, and with an exponent if it is below 0.0001 or 1000000 and above.", "quantifier": "all floats", "why_tests_cant": "All 2^32 floats.", "anchors": ["src/util.cc: dump"]}
{"id": "C90", "title": "Names of effects and alignments are recognised", "statement": "string_to_effect and string_to_vertical_reference accept exactly none, border and shadow, and top, center and bottom, and otherwise throw XMLError.", "quantifier": "all strings", "why_tests_cant": "All other strings.", "anchors": ["src/effect.cc: string_to_effect", "src/vertical_reference.cc: string_to_vertical_reference"]}
{"id": "C91", "title": "White space is space, newline and tab", "statement": "empty_or_white_space is true exactly for strings in which every character is a space, a newline or a tab.", "quantifier": "all strings", "why_tests_cant": "All strings of any length.", "anchors": ["src/util.cc: empty_or_white_space"]}
{"id": "C92", "title": "Rational behaves as a fraction", "statement": "operator== compares numerators and denominators; integer() says whether the fraction is a whole number; integer_fraction() is its whole part; fraction() is the nearest double; max() is the larger of two fractions.", "quantifier": "all numerators and denominators", "why_tests_cant": "All pairs of fractions.", "anchors": ["src/rational.h: Rational::fraction, Rational::integer_fraction", "src/rational.cc: operator==, Rational::integer, max"]}
{"id": "C93", "title": "metadata() of a binary STL file gives what its header says", "statement": "For every file that is read, metadata() has the 29 entries of the header: text as it is in the file, numbers, and the descriptions of codes.", "quantifier": "all files", "why_tests_cant": "All headers.", "anchors": ["src/stl_binary_reader.cc: STLBinaryReader::metadata, STLBinaryReader::read"]}
{"id": "C94", "title": "Exceptions say what was wrong", "statement": "what() of SubripError and WebVTTError says what was seen and what was expected, and in which line; what() of the other exceptions is their message.", "quantifier": "all exceptions", "why_tests_cant": "All texts that can be wrong, also those with percent signs.", "anchors": ["src/exceptions.cc: SubripError::SubripError, WebVTTError::WebVTTError, ProgrammingError::ProgrammingError", "src/exceptions.h", "src/compose.hpp"]}
{"id": "C95", "title": "dumpsubs shows a file or says why not", "statement": "dumpsubs with one file writes the file's metadata and subtitles to standard output and succeeds; -h and --help give help; no file, several files, a file that does not exist, or one without a reader give an error.", "quantifier": "all arguments and files", "why_tests_cant": "All command lines and all files.", "anchors": ["tools/dumpsubs.cc: main, help"]}
{"id": "C96", "title": "Every unusable line of a text STL file is reported", "statement": "While a text STL file is read, standard output gets one warning for each line that is neither a comment, a setting nor a subtitle, and one for each time that is not a time; nothing else is written, in the order of the lines, up to the line that throws.", "quantifier": "all files", "why_tests_cant": "All files, with any number of faults in any order.", "anchors": ["src/stl_text_reader.cc: STLTextReader::STLTextReader, STLTextReader::time", "src/reader.cc: Reader::warn", "src/compose.hpp"]}
{"id": "C97", "title": "Numbers in messages are written in decimal", "statement": "locale_convert<string> of an int, long, unsigned long or unsigned long long gives its decimal digits, with a minus sign if it is negative; a string is left as it is.", "quantifier": "all values of these types", "why_tests_cant": "All 2^32 or 2^64 values.", "anchors": ["src/locale_convert.cc: locale_convert"]}
{"id": "C98", "title": "Conversions in several threads do not disturb each other", "statement": "When several threads convert text to or from ISO 6937 at the same time (as reading and writing binary STL files does), no two of them access the shared tables at the same time with one writing, and each gets what it gets when it runs alone.", "quantifier": "all numbers of threads, all texts, all schedules", "why_tests_cant": "Schedules cannot be enumerated or forced by a test; the race is only seen in unlucky runs.", "anchors": ["src/iso6937.cc: iso6937_to_utf16, utf16_to_iso6937", "src/iso6937_tables.cc: make_iso6937_tables"]}
{"id": "C99", "title": "A write that was cut short can be told from a finished one", "statement": "If write_stl_binary is stopped at any point (a crash, a full disk), the file at that path is the old one, or complete, or STLBinaryReader refuses it with an STLError that says that the header or a block is missing. If write_stl_binary throws, the old file is untouched; if it returns, the file is complete. A readable file cut anywhere before the end of its last block is refused.", "quantifier": "all subtitles and header fields, all points at which the program can be stopped, all sizes of writes, all media", "why_tests_cant": "A test cannot stop the program at every point, nor cut every file everywhere.", "anchors": ["src/stl_binary_writer.cc: write_stl_binary", "src/stl_binary_reader.cc: STLBinaryReader::read, FILEInputReader::read, StreamInputReader::read"]}
{"id": "C100", "title": "What comes later in a file does not change what came before", "statement": "For SubRip, WebVTT and SSA: if a text that ends in a newline, followed by anything, can be read, then that text alone can be read and gives the first of the subtitles. For text STL the same holds for any text. So the beginning of a file (a download that is not finished) shows the subtitles that the whole file begins with.", "quantifier": "all texts and all continuations", "why_tests_cant": "All texts, cut at every line.", "anchors": ["src/subrip_reader.cc: SubripReader::read", "src/web_vtt_reader.cc: WebVTTReader::read", "src/ssa_reader.cc: SSAReader::read", "src/stl_text_reader.cc: STLTextReader::STLTextReader", "src/util.cc: get_line_string, get_line_file"]}
{"id": "C101", "title": "Line ends do not matter", "statement": "A text file with a carriage return before some or all of its newlines gives the same subtitles, or the same error, as without: SubRip, WebVTT, SSA and text STL, from a string or from a file.", "quantifier": "all texts and all choices of line ends", "why_tests_cant": "All texts, with any mixture of line ends.", "anchors": ["src/subrip_reader.cc: SubripReader::read", "src/web_vtt_reader.cc: WebVTTReader::read", "src/ssa_reader.cc: SSAReader::read", "src/stl_text_reader.cc: STLTextReader::STLTextReader", "src/util.cc: get_line_string, get_line_file"]}
{"id": "C102", "title": "A byte order mark does not matter", "statement": "A text file with a UTF-8 byte order mark at its beginning gives the same subtitles, or the same error, as without: SubRip, WebVTT, SSA and text STL.", "quantifier": "all texts", "why_tests_cant": "All texts.", "anchors": ["src/util.cc: remove_unicode_bom", "src/subrip_reader.cc: SubripReader::read", "src/web_vtt_reader.cc: WebVTTReader::read", "src/ssa_reader.cc: SSAReader::read", "src/stl_text_reader.cc: STLTextReader::STLTextReader"]}
{"id": "C103", "title": "What a reader gives can be collected", "statement": "The subtitles that any reader gives for a file can be passed to collect() with any stable sort: it returns subtitles made of all the pieces, in order of their start.", "quantifier": "all files that can be read", "why_tests_cant": "All files that can be read, with any times in any order.", "anchors": ["src/collect.h: collect", "src/sub_time.cc: operator<", "src/subrip_reader.cc: SubripReader::read", "src/web_vtt_reader.cc: WebVTTReader::read", "src/ssa_reader.cc: SSAReader::read", "src/stl_binary_reader.cc: STLBinaryReader::read", "src/stl_text_reader.cc: STLTextReader::STLTextReader"]}
{"id": "C104", "title": "The times in one file have one rate", "statement": "All subtitles from one file have times of the same rate: milliseconds for SubRip, WebVTT and SSA, the frame rate of the header for binary STL, and none for text STL. No reader sets fades.", "quantifier": "all files that can be read", "why_tests_cant": "All files that can be read.", "anchors": ["src/subrip_reader.cc: SubripReader::read, SubripReader::convert_time", "src/web_vtt_reader.cc: WebVTTReader::read", "src/ssa_reader.cc: SSAReader::read, SSAReader::parse_time", "src/stl_binary_reader.cc: STLBinaryReader::read, STLBinaryReader::get_timecode", "src/stl_text_reader.cc: STLTextReader::time"]}
{"id": "C105", "title": "A file that can be read can be converted to binary STL", "statement": "What any reader gives for a file can be collected and then written as binary STL at any rate, and the file has what was collected; no conversion has undefined behaviour.", "quantifier": "all files that can be read, all rates and header fields", "why_tests_cant": "All files that can be read, composed with collect() and the writer.", "anchors": ["src/stl_binary_writer.cc: write_stl_binary, vertical_position", "src/collect.h: collect", "src/subrip_reader.cc: SubripReader::read", "src/web_vtt_reader.cc: WebVTTReader::read", "src/ssa_reader.cc: SSAReader::read", "src/stl_binary_reader.cc: STLBinaryReader::read", "src/stl_text_reader.cc: STLTextReader::STLTextReader"]}
{"id": "C106", "title": "A binary STL file that is loaded and saved shows the same", "statement": "A binary STL file that is read, collected and written at the same rate gives, when it is read again, the same characters on the same rows, in the same style and colour, at the same times.", "quantifier": "all binary STL files", "why_tests_cant": "All files, composed through the reader, collect(), the writer and the reader.", "anchors": ["src/stl_binary_reader.cc: STLBinaryReader::read", "src/collect.h: collect", "src/stl_binary_writer.cc: write_stl_binary"]}
{"id": "C107", "title": "Readers do not invent text", "statement": "The text of all pieces that a text file reader gives, one after the other, is what is left of the file when some of its characters are taken away: nothing is added, repeated or put in another order. SubRip, WebVTT and SSA from a string or from a file, and text STL.", "quantifier": "all files that can be read", "why_tests_cant": "All files that can be read.", "anchors": ["src/subrip_reader.cc: SubripReader::read, SubripReader::convert_line", "src/web_vtt_reader.cc: WebVTTReader::read", "src/ssa_reader.cc: SSAReader::read, SSAReader::parse_line", "src/stl_text_reader.cc: STLTextReader::STLTextReader", "src/util.cc: get_line_string, get_line_file"]}
{"id": "C108", "title": "Every piece has some text, on one line", "statement": "No reader gives a piece with an empty text, or one with a newline in it.", "quantifier": "all files that can be read", "why_tests_cant": "All files that can be read.", "anchors": ["src/subrip_reader.cc: SubripReader::maybe_content", "src/web_vtt_reader.cc: WebVTTReader::read", "src/ssa_reader.cc: SSAReader::parse_line", "src/stl_text_reader.cc: STLTextReader::maybe_push", "src/stl_binary_reader.cc: STLBinaryReader::read"]}
{"id": "C109", "title": "Text in UTF-8 stays in UTF-8", "statement": "If a file is in UTF-8, the text of every piece that its reader gives is in UTF-8. Texts from binary STL files are always in UTF-8.", "quantifier": "all files that can be read", "why_tests_cant": "All files that can be read, with any characters next to any tags.", "anchors": ["src/subrip_reader.cc: SubripReader::convert_line", "src/web_vtt_reader.cc: WebVTTReader::read", "src/ssa_reader.cc: SSAReader::parse_line", "src/stl_text_reader.cc: STLTextReader::STLTextReader", "src/stl_binary_reader.cc: STLBinaryReader::read", "src/util.cc: get_line_file"]}
{"id": "C110", "title": "Colours are in range", "statement": "The red, green and blue parts of every colour that a reader gives are between 0 and 1.", "quantifier": "all files that can be read", "why_tests_cant": "All files that can be read.", "anchors": ["src/colour.cc: Colour::from_rgb_hex, Colour::from_rgba_hex", "src/subrip_reader.cc: SubripReader::convert_line", "src/ssa_reader.cc: h_colour, Style::colour, SSAReader::parse_line", "src/stl_binary_reader.cc: STLBinaryReader::read"]}
{"id": "C111", "title": "The order of the pieces does not matter to collect()", "statement": "collect() gives the same subtitles whatever order the pieces are in, as long as pieces that start together stay in order among themselves.", "quantifier": "all lists of pieces and all orders of them, and every conforming sort", "why_tests_cant": "All orders of any number of pieces.", "anchors": ["src/collect.h: collect", "src/raw_subtitle.cc: operator<"]}
{"id": "C112", "title": "Pieces can be collected in parts", "statement": "If everything in a first list starts before everything in a second, collecting the two lists together gives what collecting each gives, one after the other.", "quantifier": "all lists of pieces, and every conforming sort", "why_tests_cant": "All lists of pieces.", "anchors": ["src/collect.h: collect"]}
{"id": "C113", "title": "Files can be joined", "statement": "If a SubRip file ends in an empty line, putting another one after it gives what the first gives followed by what the second gives, and the whole can be read if and only if both can. The same holds for WebVTT, if the second file begins with a header.", "quantifier": "all pairs of files", "why_tests_cant": "All pairs of files.", "anchors": ["src/subrip_reader.cc: SubripReader::read", "src/web_vtt_reader.cc: WebVTTReader::read"]}
{"id": "C114", "title": "Comments, notes and empty lines do not matter", "statement": "Comments in SSA and text STL files, further empty lines between SubRip cues, and notes between WebVTT cues change nothing in what the readers give.", "quantifier": "all files, and all comments at any line of them", "why_tests_cant": "All comments at all places in all files.", "anchors": ["src/ssa_reader.cc: SSAReader::read", "src/stl_text_reader.cc: STLTextReader::STLTextReader", "src/subrip_reader.cc: SubripReader::read", "src/web_vtt_reader.cc: WebVTTReader::read"]}
{"id": "C115", "title": "Scaling by 1 changes nothing", "statement": "Time::scale(1) gives the same time.", "quantifier": "all times from zero on at whole frame rates", "why_tests_cant": "All times; the seconds go through binary floating point.", "anchors": ["src/sub_time.cc: Time::scale, Time::all_as_seconds"]}
{"id": "C116", "title": "Moving and scaling keep the order", "statement": "Of two times at one rate, the one that is not later is still not later when both are scaled by the same factor, or when the same time is added to both.", "quantifier": "all pairs of times from zero on at whole frame rates, all factors from zero on that keep the times in range", "why_tests_cant": "All pairs of times and all factors, through several floating-point roundings.", "anchors": ["src/sub_time.cc: Time::scale, Time::add, Time::all_as_seconds"]}
{"id": "C117", "title": "Times can be added in either order", "statement": "a.add(b) and b.add(a) give the same seconds and frames at the same rate.", "quantifier": "all pairs of times from zero on at whole frame rates", "why_tests_cant": "All pairs of times at all pairs of rates.", "anchors": ["src/sub_time.cc: Time::add"]}
{"id": "C118", "title": "Adding nothing changes nothing", "statement": "Adding a time of zero gives the same time.", "quantifier": "all times from zero on at whole frame rates", "why_tests_cant": "All times; the seconds go through milliseconds and binary floating point.", "anchors": ["src/sub_time.cc: Time::add, Time::all_as_seconds"]}
{"id": "C119", "title": "What is converted to binary STL is kept", "statement": "Reading an SSA or binary STL file, collecting what was read, writing it as binary STL and reading that file gives every character that ISO 6937 has (or its substitute), in order of time, with the times it had to the nearest frame.", "quantifier": "all files that can be read, with positions on the screen and times from zero on, at 24, 25 and 30 frames a second, any number of blocks, whatever was converted before", "why_tests_cant": "The whole way through five functions, for all files; long texts are cut into blocks in the middle of lines.", "anchors": ["src/ssa_reader.cc: SSAReader", "src/stl_binary_reader.cc: STLBinaryReader", "src/collect.h: collect", "src/stl_binary_writer.cc: write_stl_binary"]}
{"id": "C120", "title": "Saving again what was saved changes nothing", "statement": "A binary STL file that was read, collected and written gives, when it is read, collected and written again with the same arguments, the same file, byte for byte.", "quantifier": "all binary STL files that can be read, whatever was converted before", "why_tests_cant": "Twice through three functions, for all files; a difference of one byte each time would add up over the years that a file is edited.", "anchors": ["src/stl_binary_reader.cc: STLBinaryReader::read", "src/collect.h: collect", "src/stl_binary_writer.cc: write_stl_binary"]}
{"id": "C121", "title": "What a program did before does not matter", "statement": "Reading a file, opening one, converting a text and writing subtitles give the same results, whatever the program has read, opened, converted or written before, also when those calls failed.", "quantifier": "all sequences of calls of the readers, reader_factory, the ISO 6937 conversions and write_stl_binary, and all files and subtitles", "why_tests_cant": "Any sequence of any calls; the library keeps tables that every conversion may change.", "anchors": ["src/iso6937.cc: iso6937_to_utf16, utf16_to_iso6937", "src/stl_binary_reader.cc: STLBinaryReader::read", "src/stl_binary_writer.cc: write_stl_binary", "src/reader_factory.cc: reader_factory"]}
{"id": "C122", "title": "A subtitle can be taken out, put in or moved without changing the others", "statement": "A file with some subtitles in the middle gives the subtitles of the file without them, unchanged and in order, with those of the middle in between; when two groups of subtitles change places in a file, so do the subtitles that are read, and nothing else changes.", "quantifier": "all files in every format, and all groups of whole subtitles in them", "why_tests_cant": "Any file around any subtitles; the readers keep times, styles, rows and positions from one subtitle to the next.", "anchors": ["src/subrip_reader.cc: SubripReader::read", "src/web_vtt_reader.cc: WebVTTReader::read", "src/ssa_reader.cc: SSAReader::read", "src/stl_text_reader.cc: STLTextReader::STLTextReader, maybe_push", "src/stl_binary_reader.cc: STLBinaryReader::read"]}
{"id": "C123", "title": "Changing the times of one subtitle changes nothing else", "statement": "When the times of one subtitle in a file are replaced by others, everything that was read of it has the new times and is otherwise the same, and all the other subtitles are read exactly as before.", "quantifier": "all files in every format, all subtitles in them and all pairs of times", "why_tests_cant": "Any file around any text and any times; the readers keep the times in a state that later lines also use.", "anchors": ["src/subrip_reader.cc: SubripReader::read", "src/web_vtt_reader.cc: WebVTTReader::read", "src/ssa_reader.cc: SSAReader::read", "src/stl_text_reader.cc: STLTextReader::STLTextReader", "src/stl_binary_reader.cc: STLBinaryReader::read"]}
{"id": "C124", "title": "The same cues mean the same in SubRip and WebVTT", "statement": "A SubRip file that is made into a WebVTT file (a header is put before it, and the commas in its timing lines become dots) gives the same subtitles.", "quantifier": "all SubRip files of cues with a counter, a timing line and text", "why_tests_cant": "All files; the two readers are different programs that read lines, times and text in their own ways.", "anchors": ["src/subrip_reader.cc: SubripReader::read, convert_line", "src/web_vtt_reader.cc: WebVTTReader::read"]}
{"id": "C125", "title": "Which styles of an SSA file matter", "statement": "A style whose name does not come up in the rest of the file, and which is not the one called Default, makes no difference. Styles with different names can change places. Of several styles with one name the last one counts. This holds for styles that can be read, and whatever the outcome of reading the file is.", "quantifier": "all SSA files, all lists of style fields in any order, and all styles at any place among the others", "why_tests_cant": "Any styles in any order in any file; the reader keeps one table of them that every subtitle looks up.", "anchors": ["src/ssa_reader.cc: SSAReader::read, Style"]}
{"id": "C126", "title": "The fields of an SSA file can be in any order", "statement": "When the keys of a Format line, and the values of every line under it, are put in another order, the same subtitles are read. (The text has to be the last field of a dialogue, because it may have commas in it.)", "quantifier": "all SSA files with a section of styles or of dialogues, all keys and values, all orders", "why_tests_cant": "All orders of any fields, in files with any other content.", "anchors": ["src/ssa_reader.cc: SSAReader::read, Style"]}
{"id": "C127", "title": "Collected subtitles stay as they are when they are collected again", "statement": "When collected subtitles are taken apart into pieces, each with the position of its line and the times of its subtitle, and these are collected, the result is the same subtitles, lines and blocks.", "quantifier": "all lists of pieces, all files in every format, and all sorting programs that the library may be given", "why_tests_cant": "All lists; positions are compared in three different ways, depending on what both of them have.", "anchors": ["src/collect.h: collect", "src/vertical_position.cc: operator==", "src/subtitle.cc: Subtitle::same_metadata, Line::same_metadata"]}
{"id": "C128", "title": "Readers do not invent times", "statement": "Every piece that a reader gives has the start and the end that one line (or block) of the file says, and the pieces come in the order of these lines.", "quantifier": "all files in every format that can be read", "why_tests_cant": "All files; readers keep the times in a state that goes from line to line, so that they may come from the wrong one.", "anchors": ["src/subrip_reader.cc: SubripReader::read", "src/web_vtt_reader.cc: WebVTTReader::read", "src/ssa_reader.cc: SSAReader::read, SSAReader::parse_time", "src/stl_text_reader.cc: STLTextReader::STLTextReader, time", "src/stl_binary_reader.cc: STLBinaryReader::read, get_timecode"]}
{"id": "C129", "title": "A subtitle does not end before it starts", "statement": "No piece that a reader gives, and no subtitle that collect() makes of them, has an end before its start.", "quantifier": "all files in every format that can be read, and all sorting programs that the library may be given", "why_tests_cant": "All times in all files.", "anchors": ["src/subrip_reader.cc: SubripReader::read", "src/web_vtt_reader.cc: WebVTTReader::read", "src/ssa_reader.cc: SSAReader::read", "src/stl_text_reader.cc: STLTextReader::STLTextReader", "src/stl_binary_reader.cc: STLBinaryReader::read", "src/collect.h: collect"]}
{"id": "C130", "title": "The numbers and names of subtitles do not matter", "statement": "The number line of a SubRip cue, the names of a WebVTT cue, the fields of an SSA dialogue that say neither when, where and how nor what (the layer, the speaker), and the group and subtitle numbers of the blocks of a binary STL file can be replaced by any others: reading gives the same subtitles, or the same error but for the lines of the file that it shows.", "quantifier": "all files in these formats, whatever the outcome of reading them, and all numbers and names", "why_tests_cant": "All files and all numbers and names; the number line is read by the same loop as everything else and is kept for errors.", "anchors": ["src/subrip_reader.cc: SubripReader::read", "src/web_vtt_reader.cc: WebVTTReader::read", "src/ssa_reader.cc: SSAReader::read", "src/stl_binary_reader.cc: STLBinaryReader::read"]}
{"id": "C131", "title": "User data in a binary STL file is not shown", "statement": "A block of a binary STL file with the extension block number FE, which EBU Tech 3264 reserves for user data, gives no subtitles.", "quantifier": "all binary STL files", "why_tests_cant": "All files, with blocks of user data at any place.", "anchors": ["src/stl_binary_reader.cc: STLBinaryReader::read"]}
{"id": "C132", "title": "The header of a binary STL file says how many characters its longest row has", "statement": "The field for the maximum number of characters in a row holds the number of characters of the longest line of the subtitles.", "quantifier": "all lists of subtitles and header values that can be written", "why_tests_cant": "All texts: bytes and characters are the same number in the ASCII texts that tests use.", "anchors": ["src/stl_binary_writer.cc: sub::write_stl_binary"]}
{"id": "C133", "title": "The header of a binary STL file says when its first subtitle starts", "statement": "The first in-cue time code of the header is the start of the first subtitle.", "quantifier": "all lists of subtitles and header values that can be written", "why_tests_cant": "All times.", "anchors": ["src/stl_binary_writer.cc: sub::write_stl_binary"]}
{"id": "C134", "title": "The texts in the header of a binary STL file are in its code page", "statement": "The titles, names and contact details that the writer puts in the header are written in the code page that the header says, and those that the reader gives are the UTF-8 of what the bytes mean in it.", "quantifier": "all header values that can be written, all binary STL files that can be read, code page 850", "why_tests_cant": "All texts; in ASCII the encodings agree.", "anchors": ["src/stl_binary_writer.cc: sub::write_stl_binary, put_string", "src/stl_binary_reader.cc: STLBinaryReader::read, get_string"]}
