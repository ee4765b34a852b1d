# Formal model of libsub in Rocq (Coq 8.16.1): design

Source: /repo (C++11), read as text.  Model: /verif/rocq/theories (logical name `Verif`).

## 1. Modelling choices

* **Outcomes.**  Every modelled function that can fail returns `res A`: `Ok a`, `Throw e` (a C++ exception, with
  its payload where the code has one), or `Undef u` (undefined behaviour: int overflow, `get()` on an empty
  optional, `back()`/`front()` of an empty vector, null dereference, out-of-range float-to-int conversion).
  Undefined behaviour is thus a visible outcome, never silently given a value.
* **int** is `Z` with explicit 32-bit range checks at each C++ operation that can overflow (`Undef` when it does).
* **char / std::string** are `ascii` / `list ascii` (all 256 bytes).  `char` is signed (x86-64), which fixes the
  iteration order of `std::map<char,...>`.
* **float / double** are the IEEE-754 binary32/binary64 operations of `Coq.Floats.SpecFloat`
  (round to nearest even, FLT_EVAL_METHOD 0, no fast-math: /repo/wscript uses -O3 only).  Conversions and `rint`
  are defined in `Float.v`.  SpecFloat is computable and has no axioms; numeric theorems are proved through
  Flocq, whose proofs use the standard library's real-number axioms.
* **Loops** are structural recursion, or recursion on explicit fuel with a distinct `Undef` outcome for running
  out, together with a proof that the fuel given is enough.
* **Third-party behaviour** (boost::split, trim, to_lower, lexical_cast, replace_all, regex on two fixed patterns,
  boost::locale utf_to_utf, sscanf %d/%f/%x, strtoll, atoi, fgets, istream::read, std::stable_sort) is modelled by small
  total functions with the documented semantics, in the classic locale; std::stable_sort is a parameter constrained by
  its standard contract, so theorems hold for every implementation.

## 2. Layers (files)

| model file | code |
|---|---|
| Base, Strings | outcome monad, int32 checks, bytes; boost string algorithms, sscanf %d/%x, lexical_cast, printf %d |
| Float | binary32/64, rint, conversions, sscanf %f |
| TimeModel | rational.h, rational.cc, sub_time.h, sub_time.cc |
| Types | colour.cc, effect.cc, font_size.cc, vertical_reference.cc, vertical_position.cc, horizontal_position.cc, raw_subtitle.{h,cc}, subtitle.{h,cc} |
| Collect | collect.h |
| Lines | util.cc (get_line_*, remove_unicode_bom, empty_or_white_space) |
| Subrip, WebVtt, Ssa, StlText | subrip_reader.cc, web_vtt_reader.cc, ssa_reader.cc, stl_text_reader.cc with reader.cc (warn) |
| Utf, Iso6937, Iso6937Tables | boost::locale utf_to_utf, iso6937.cc, iso6937_tables.cc (generated from the source by tools/gen_tables.py) |
| StlTables | stl_binary_tables.cc (same) |
| StlUtil, StlBinReader, StlBinWriter | stl_util.cc, stl_binary_reader.cc, stl_binary_writer.cc |
| Factory, Dump, Dumpsubs | reader_factory.cc, util.cc (dump), tools/dumpsubs.cc |
| Compose, RawConvert, Exceptions | compose.hpp, raw_convert.cc, locale_convert.cc, exceptions.{h,cc}, sub_assert.h |
| Saving | stl_binary_writer.cc 387-392: opening and writing the file in steps |
| Threads | the tables built on first use, with threads that make readers: stl_binary_tables.cc, iso6937.cc, ssa_reader.cc |

`Spec/*.v` say what files, texts, times and positions mean.  They share data types with the model (time, raw, colour and
so on) and bytes, but none of its functions.  `Properties/*.v` contain only theorems, `Print Assumptions` and examples
that meet the hypotheses.  `Proofs/*.v` contain everything else.  `Tests/*.v` run the model on the inputs of /repo/test
(tests, not proofs).

## 3. Plan per property

| id | modelled | method |
|---|---|---|
| C01 | Time, from_hms, accessors, frames_at in binary64 | Z arithmetic; exactness of the double computation by Flocq |
| C02 | operator<,>,== with overflow checks | cross-multiplication lemmas over Z, instants as rationals Q; overflow exactly when a product does not fit |
| C03 | same | expected false (numerators and denominators are swapped): refute with witness, prove same-rate part |
| C04 | same | case analysis |
| C05 | same | order lemmas on rational keys |
| C06 | frames_at | Flocq error bound against distance to the nearest tie |
| C07 | frames_at | exact rational bound, then C06 |
| C08 | from_frames | Z division |
| C09 | add | expected false: refute; prove one-frame bound if possible |
| C10 | scale, frames_at | expected false: refute with witness; prove <= rate |
| C11, C12 | collect over any conforming stable_sort | induction over the sorted list with the partial result as invariant |
| C13 | same | adjacency argument on the sorted list |
| C14 | same | expected false: refute; prove when pieces with one start share one end |
| C15 | tables, encode, decode | per-code-point check lifted by induction over strings |
| C16 | encode | invariant over tables; the zeros that decoding leaves in the tables are followed through any history, so that what U+0000 becomes is known exactly |
| C17 | stateful decode/encode over table state | state invariant over histories |
| C18 | decode | expected false (0xC9, 0xCC): refute; exact condition |
| C19 | encode | induction |
| C20-C22 | six tables | finite case analysis over all entries/all codes; U8 expected false |
| C23-C26 | write_stl_binary, make_tti_blocks | structural proofs over lists and buffers |
| C25, C27 | same | expected false in general: refute, prove under size/frame condition |
| C28 | writer on reader outputs | expected false: refute with a SubRip file |
| C29-C31 | STLBinaryReader::read | outcome analysis; invariants of the block loop |
| C32, C33 | writer and reader composed | simulation of the block scanner on the writer's bytes |
| C34 | same | expected false: refute; for all subtitles, each block as seen on its own (`seen`, in Spec/LongTextSpec.v) |
| C35 | stl_util | 24, 25, 30 proved; 23.976 and others refuted |
| C36-C42 | SubRip reader | cue renderer as spec, induction over cues; markup AST as spec for tags |
| C43-C45 | WebVTT reader | same technique |
| C46-C51 | SSA reader | strings: induction; positions: structural |
| C52-C54 | STL text reader | expected false in general: refute, prove the restricted form |
| C55 | reader_factory | case analysis |
| C56 | dump | induction with style-state invariant |
| C57 | make_local, sscanf model with decimal point parameter | induction over strings |
| C58 | compose | expected false for empty arguments |
| C59 | position equality | expected false (unset positions, tolerance): refute; symmetric part proved |
| C60 | fraction_from_screen_top | order of floats |
| C61 | all_as_seconds in binary64 | Flocq error bound |
| C62 | Colour from hex strings, sscanf %x | equivalence with a grammar of two hex digits; C62_any_* for all strings |
| C63 | FontSize | Flocq error bounds; exactness refuted with a witness |
| C64 | Block, Line, Subtitle equality | case analysis, iff |
| C65 | decoder | relation to the standard's repertoire (Spec/Iso6937Spec.v) and Unicode compositions |
| C66 | reader then writer | row arithmetic in binary32, exhaustive over rows 0..23; exceptions refuted; exact row for every block |
| C67 | utf_to_utf both ways | induction; C67_any_bytes for arbitrary bytes |
| C68 | STLBinaryReader | equivalence with Spec/StlFileSpec.v |
| C69 | writer | refuted |
| C70, C71 | SubRip reader | equivalence with Spec/SubripSpec.v, including every way of stopping |
| C72-C75 | WebVTT reader | equivalence with Spec/WebVttSpec.v; standard's timing lines |
| C76-C80 | SSA reader | equivalence with Spec/SsaSpec.v, SsaTagSpec.v; undefined behaviour with Spec/SsaOverflowSpec.v (C76_undefined, C78_as_is); positions by Flocq bounds |
| C81 | sscanf %f | Flocq: nearest float of the decimal value |
| C82-C84 | text STL reader | equivalence with Spec/StlTextSpec.v |
| C85 | operator<< of Time | decimal printing lemmas; reading back |
| C86 | dump | equivalence with Spec/DumpSpec.v |
| C87, C88 | writer and reader composed | field by field from C24 and C68 |
| C89 | operator<< of float | six significant figures, proved over R |
| C90, C91 | names, white space | case analysis, iff |
| C92 | Rational | Flocq; max refuted for fractions equal as doubles, and exact in terms of the doubles |
| C93 | metadata() | table of header fields (Spec/MetadataSpec.v) |
| C94 | what() | C58 |
| C95 | dumpsubs | C55, C86, C96; arguments by induction |
| C96 | warnings of the text STL reader | same line analysis as C82 |
| C97 | locale_convert | decimal printing; unsigned long long refuted |
| C98 | iso6937.cc and make_iso6937_tables as threads that share the tables, any schedule | invariant over schedules: shared tables unchanged, each thread on its way to what it gives alone; races at first use and with stray bytes refuted; what counts as an access proved to cover every change and all that a step depends on |
| C99 | write_stl_binary as steps that get any number of bytes to a file on any medium; reading of parts of files | invariant over steps (the file has what was written so far); induction over blocks |
| C100 | the four text readers | the list of subtitles only grows from line to line; lines of a text put together |
| C101 | same | lines that differ in their ends are the same once trimmed; files with lines of 254 bytes refuted, and exactly what any file with carriage returns is read as |
| C102 | same, remove_unicode_bom | the first line is the same once cleaned; text STL, and SSA with white space at the beginning, refuted, and what they do to the first line said exactly |
| C103 | the readers, then collect | the times meet the conditions of C11 and C12 (same rate, products that fit); long milliseconds, and SSA text before start, refuted |
| C104 | the readers | invariant over lines: every subtitle has times of this rate |
| C105 | the readers, collect, then the binary STL writer | what was collected meets the conditions of C23 (the writer's) for binary STL and SSA; the others refuted for all files |
| C106 | binary STL reader, collect, writer, reader | round trip of C32 and C33 composed with the groups of C12, character by character; colours refuted; C106_as_is composes collect() with C34_as_is |
| C107 | the text file readers | by induction over what files mean (the relations of C71, C75, C76, C82): the text is a subsequence of the file |
| C108 | all readers | the same induction; refuted for WebVTT with U+2028 and for binary STL |
| C109 | all readers | cutting a UTF-8 text at an ASCII character or at a whole separator leaves two UTF-8 texts; refuted where a single byte is dropped or a buffer ends |
| C110 | all readers | every colour comes from a byte over 255 (256 values, computed) or is white; refuted for rgba() and for styles without a colour |
| C111 | collect() | two reorderings with the same order among equal starts sort to the same list (stable sort is unique) |
| C112 | collect() | the loop over the sorted pieces starts a new subtitle at the boundary, so it splits there |
| C113 | SubRip and WebVTT readers | the line-by-line specification of a file splits at an empty line; both directions |
| C114 | all text readers | the lines that are added are consumed by one clause of the specification each |
| C115 | Time::scale | error bounds below half a frame, with whole seconds exact; refuted for every whole rate above 1000 |
| C116 | Time::scale, Time::add | the exact formula with every rounding; each rounding is monotone |
| C117 | Time::add | the exact formula is symmetric |
| C118 | Time::add | refuted; error of at most one frame downwards from C09's theorem |
| C119 | readers, collect, write_stl_binary | the groups of collect() against the groups of blocks that are read back; the times of a group are equal because the rate is; C119_as_is composes collect() with C34_as_is |
| C120 | binary STL reader, collect, writer, twice | what is read from a block is spelt again: pieces against the items that are written, code by code; the groups of a sorted list are unique; the longest line is that of the characters between row codes |
| C121 | all calls that use the tables, in any order | a session changes the tables as a sequence of conversions does (monadic induction over the reader); results on tables that only grew are those on new ones |
| C122 | all readers | cues after an empty line are read as they are alone (C113); dialogues and text STL lines leave only times behind, and the next line sets them; the last row of a binary STL file is a maximum over its blocks |
| C123 | all readers | tags, codes and rows do not look at times: induction over the pieces of a text with any times; C122 for what is around |
| C124 | SubRip and WebVTT readers | the meaning of a file in both formats (C38, C75) on related lists of lines: induction over them; for text with markup a counterexample, and what WebVTT gives for any text |
| C125 | SSA reader | the reader's table of styles as a finite map: readers whose tables agree on the names that occur give the same; induction over the rest of the file |
| C126 | SSA reader | steps that can change places: induction over the list of fields, the style moved to the front; the key lines are only used by lines of their own section |
| C127 | the readers, then collect() twice | a grouping of a list is unique, and the pieces of a result are grouped by the result; NaN, which is not equal to itself, refuted |
| C128 | the readers | from what a file means: every cue, line or block gives its times to all of its pieces, which come in order |
| C129 | the readers and collect() | from C128, for files in which no line says so; refuted for every reader |
| C130 | the readers, with every outcome | step by step: two runs that differ in the lines kept for errors, or in bytes and fields that are never looked at |
| C131 | the binary STL reader | refuted by a file; what it does with the extension block number (nothing) is proved |
| C132 | the header written by write_stl_binary | refuted by a text that is not ASCII; proved for ASCII, and that the number is not too small, by induction over lines and their encoding |
| C133 | the header written by write_stl_binary | refuted; the field is right exactly if the first subtitle starts at 0 |
| C134 | header texts written and read | code page 850 given as a table; bytes mean the same in both encodings exactly if they are ASCII, by induction over the encoding and a check of the first bytes of characters |

## 4. Trusted base

* Coq 8.16.1's kernel, and coqchk.
* The reading of the C++ source as the model: every definition in Model cites the lines it models.
* The documented behaviour of the libraries used by the code (see 1 and 5), as modelled.
* The standard library's axioms, as listed below.  There are no axioms, parameters, functors or module types of this
  development's own.  Flocq and the tactics used bring no axioms beyond those of Coq.Reals:
  `ClassicalDedekindReals.sig_forall_dec`, `ClassicalDedekindReals.sig_not_dec`,
  `FunctionalExtensionality.functional_extensionality_dep` and `Classical_Prop.classic`.

What `Print Assumptions` lists for each property theorem (collected by tools/assumptions.py):

<!-- assumptions begin -->
**421 theorems are closed under the global context** (no axioms):

C01_from_hmsf_components, C02_as_is, C02_no_rate, C02_products_fit, C02_refuted, C02_same_rate_partial, C03_as_is, C03_different_rates_eq_refuted, C03_different_rates_partial, C03_different_rates_refuted, C04_comparison_errors, C04_comparison_overflow, C05_gt_and_ne, C05_strict_weak_order, C05_trichotomy, C06_frames_at_errors, C06_nearest_unique, C08_from_frames, C08_from_frames_errors, C09_add_exact_refuted, C09_add_needs_rates, C100_ssa, C100_ssa_file, C100_subrip, C100_subrip_file, C100_text_stl, C100_webvtt, C100_webvtt_file, C101_file_all, C101_file_refuted, C101_ssa, C101_ssa_file_as_is, C101_ssa_file_partial, C101_subrip, C101_subrip_file_as_is, C101_subrip_file_partial, C101_text_stl, C101_webvtt, C101_webvtt_file_as_is, C101_webvtt_file_partial, C102_ssa_as_is, C102_ssa_blank, C102_ssa_partial, C102_ssa_refuted, C102_subrip, C102_text_stl_as_is, C102_text_stl_lost, C102_text_stl_refuted, C102_text_stl_setting_refuted, C102_text_stl_throws, C102_webvtt, C103_binary_stl, C103_ssa_partial, C103_ssa_refuted, C103_subrip_file_partial, C103_subrip_partial, C103_subrip_refuted, C103_text_stl, C103_webvtt_file_partial, C103_webvtt_partial, C103_webvtt_refuted, C104_binary_stl, C104_ssa_as_is, C104_ssa_file_as_is, C104_ssa_partial, C104_ssa_refuted, C104_subrip, C104_subrip_file, C104_text_stl, C104_webvtt, C104_webvtt_file, C105_no_rows_refuted, C105_ssa_refuted, C105_subrip_refuted, C105_text_stl_refuted, C105_webvtt_refuted, C106_colour_refuted, C107_ssa, C107_ssa_file, C107_subrip, C107_subrip_file, C107_text_stl, C107_webvtt, C107_webvtt_file, C108_binary_stl_lines_partial, C108_binary_stl_lines_refuted, C108_binary_stl_refuted, C108_ssa, C108_ssa_file, C108_subrip, C108_subrip_file, C108_text_stl, C108_webvtt_lines, C108_webvtt_partial, C108_webvtt_refuted, C109_binary_stl, C109_ssa_partial, C109_ssa_refuted, C109_subrip, C109_subrip_file_refuted, C109_text_stl_partial, C109_text_stl_refuted, C109_webvtt, C10_frames_at_refuted, C10_scale_errors, C10_scale_refuted, C111_any_order, C111_reordered, C112_parts, C113_subrip, C113_subrip_file, C113_webvtt, C113_webvtt_file, C114_ssa, C114_subrip, C114_text_stl, C114_webvtt, C118_add_zero_25_refuted, C118_add_zero_refuted, C119_marks_refuted, C11_collect_conserves, C11_sort_independent, C11_sort_unique, C120_empty_piece_refuted, C121_conversions, C121_decode, C121_encode_partial, C121_open, C121_read, C121_write_partial, C122_binary_stl_as_is, C122_binary_stl_moved, C122_binary_stl_partial, C122_binary_stl_refuted, C122_ssa, C122_ssa_moved, C122_subrip, C122_subrip_file, C122_subrip_file_moved, C122_subrip_moved, C122_text_stl_moved_partial, C122_text_stl_partial, C122_text_stl_refuted, C122_webvtt, C122_webvtt_file, C122_webvtt_file_moved, C122_webvtt_moved, C123_binary_stl, C123_ssa, C123_subrip, C123_text_stl, C123_webvtt, C124_as_is, C124_refuted, C124_same_partial, C125_again, C125_order, C125_unused, C126_events_partial, C126_events_refuted, C126_styles, C127_again_partial, C127_binary_stl, C127_nan_refuted, C127_ssa_partial, C127_subrip_partial, C127_subrip_refuted, C127_text_stl, C127_webvtt_partial, C128_binary_stl, C128_ssa, C128_ssa_file, C128_ssa_timed, C128_subrip, C128_subrip_file, C128_text_stl, C128_webvtt, C128_webvtt_file, C129_binary_stl_partial, C129_binary_stl_refuted, C129_collect, C129_ssa_partial, C129_ssa_refuted, C129_subrip_partial, C129_subrip_refuted, C129_text_stl_partial, C129_text_stl_refuted, C129_webvtt_partial, C129_webvtt_refuted, C12_collect_groups, C12_nonempty, C12_one_grouping, C12_ordered, C130_binary_stl, C130_ssa, C130_ssa_file, C130_subrip, C130_subrip_file, C130_webvtt, C130_webvtt_file, C131_as_is, C131_refuted, C134_read_as_is, C134_read_refuted, C13_mixed_rates_throw, C14_merged_partial, C14_merged_refuted, C15_iso6937_round_trip, C15_iso6937_substitutes, C16_as_is, C16_no_control_codes_fresh_partial, C16_no_control_codes_partial, C16_no_control_codes_refuted, C16_only_strays, C17_decode_any_history, C17_encode_any_history, C17_nul_is_affected, C18_decode_safe_partial, C18_decode_safe_refuted, C19_encode_append, C19_encode_dropped, C19_encode_length, C19_encode_written, C20_comments, C20_cumulative_statuses, C20_display_standards, C20_justifications, C20_language_descriptions, C20_language_group_descriptions_partial, C20_language_groups_meant, C20_language_groups_partial, C20_language_groups_refuted, C20_languages, C20_timecode_statuses, C21_unknown_codes, C21_unknown_language_groups, C22_as_is, C22_u8_is_utf8_refuted, C22_utf8_description_refuted, C24_refused, C25_field_too_small, C28_subrip_refuted, C29_missing_blocks, C29_ok_or_stl_error, C29_short_file, C30_as_is, C30_negative_row_refuted, C30_rows_fit_partial, C31_comments_ignored, C34_as_is_once, C36_plain_files, C37_no_other_exception, C37_times_accepted, C37_times_overflow, C37_times_refused, C38_cues_unique, C38_read, C38_tags, C39_as_is, C39_defined_partial, C39_defined_refuted, C39_hours_refuted, C40_as_is, C40_file_like_string_partial, C40_file_like_string_refuted, C41_error_place, C42_as_is, C42_marks_removed_partial, C42_marks_removed_refuted, C43_rendered_files, C44_header, C45_exceptions, C45_short_numbers, C45_undefined_is_overflow, C46_plain_text, C46_text_field, C47_looks, C47_texts_are_read, C49_align_tag, C49_no_tag, C49_style, C49_style_without, C50_colour_tag, C50_style_back_colour, C50_style_colour, C51_all_times, C51_bad_times, C51_times, C52_as_is, C52_start_time_partial, C52_start_time_refuted, C53_all_lines_partial, C53_bar_at_end_refuted, C53_line_numbers_partial, C53_line_numbers_refuted, C54_as_is, C54_text_kept_partial, C54_text_kept_refuted, C55_binary, C55_missing, C55_null, C55_subrip, C55_text, C55_text_refused, C57_float_any_locale, C57_int_any_locale, C57_int_value, C57_string_any_locale, C58_compose_as_is, C58_compose_partial, C58_compose_refuted, C58_marks_unique, C59_horizontal_transitive_refuted, C59_line_equivalence_partial, C59_vertical_reflexive_refuted, C59_vertical_symmetric, C59_vertical_transitive_refuted, C60_undefined, C62_no_digit_rejected, C62_no_rgb, C62_no_rgba, C62_short_rejected, C63_given_size, C63_round_trip_refuted, C64_line_equality, C64_subtitle_equality, C64_subtitle_equality_returns, C65_decode_glyphs, C65_decode_standard, C65_meaning_unique, C66_row_refuted, C67_any_bytes, C67_decode_gives_characters, C67_decode_is_utf8, C67_encode_is_utf8, C67_invalid_left_out, C67_round_trip, C68_reader_reads_the_file, C70_as_is, C70_ssa_tags_partial, C70_ssa_tags_refuted, C71_exceptions, C71_reads_the_file, C71_undefined, C72_as_is, C72_minutes_refuted, C72_settings_refuted, C72_standard_timing_partial, C73_as_is, C73_file_like_string_partial, C73_file_like_string_refuted, C74_error_place, C75_exceptions, C75_reads_the_file, C75_undefined, C76_all_there_is, C76_exceptions, C76_reads_the_file, C76_undefined, C77_as_is, C77_file_like_string_partial, C77_file_like_string_refuted, C78_as_is, C78_safe_partial, C78_safe_refuted, C79_position_refuted, C80_as_is, C80_v4_alignment_partial, C80_v4_alignment_refuted, C82_text_stl_meaning, C83_text_stl_exception, C83_text_stl_undefined, C84_as_is, C84_text_stl_safe_partial, C84_text_stl_safe_refuted, C85_time_printed, C85_time_read_back, C86_dump_fails, C90_alignments, C90_effects, C91_white_space, C92_equality, C92_max_refuted, C92_undefined, C93_metadata, C94_assertions, C94_fixed, C94_others, C94_subrip, C94_webvtt, C95_arguments, C95_fails, C95_help, C95_missing, C95_one_file, C95_unreadable, C96_no_stream, C96_opening, C96_warnings_exist, C96_warnings_unique, C96_warnings_written, C97_signed, C97_string, C97_unsigned_long, C97_unsigned_long_long_partial, C97_unsigned_long_long_refuted, C97_unsigned_long_long_wraps, C98_accesses_suffice, C98_all_finish, C98_any_schedule_partial, C98_changes_are_writes, C98_crash_refuted, C98_crash_writes, C98_first_use_refuted, C98_lost_refuted, C98_one_at_a_time, C98_unreadable_refuted, C99_complete, C99_ends, C99_part_of_any, C99_throw_leaves_file.

**2 theorems use** `Classical_Prop.classic`:

C92_integer, C92_integer_fraction.

**20 theorems use** `ClassicalDedekindReals.sig_forall_dec`, `FunctionalExtensionality.functional_extensionality_dep`:

C110_binary_stl, C110_ssa_as_is, C110_ssa_file_as_is, C110_ssa_partial, C110_ssa_refuted, C110_subrip_as_is, C110_subrip_partial, C110_subrip_refuted, C110_text_stl, C110_webvtt, C110_webvtt_file, C35_23976_refuted, C35_codes, C48_rows_refuted, C56_tags, C60_unspecified, C81_every_text, C86_dump, C89_float_printed, C95_shows.

**94 theorems use** `ClassicalDedekindReals.sig_forall_dec`, `ClassicalDedekindReals.sig_not_dec`, `Classical_Prop.classic`, `FunctionalExtensionality.functional_extensionality_dep`:

C01_from_hms_components, C06_frames_at_nearest, C07_frame_ms_round_trip, C09_add_partial, C105_binary_stl_partial, C105_ssa_partial, C106_as_is, C106_saved_again_partial, C10_frames_at_as_is, C10_frames_at_partial, C10_scale_partial, C115_fine_refuted, C115_scale_one_partial, C116_add, C116_scale, C117_add_commutes, C118_add_zero_as_is, C118_add_zero_rounds, C119_as_is, C119_binary_stl_partial, C119_pieces_partial, C119_ssa_as_is, C119_ssa_partial, C120_saved_twice_partial, C121_write_refuted, C12_lines_by_place, C132_as_is, C132_ascii_partial, C132_refuted, C133_as_is, C133_refuted, C134_written_as_is, C134_written_refuted, C23_written_file, C24_strings_in_fields, C25_counters_as_is, C25_counters_partial, C25_longest_line_refuted, C25_revision_refuted, C26_last_mark_refuted, C26_text_partial, C27_frame_refuted, C27_frames_as_is, C27_frames_partial, C28_collected_partial, C32_exact_rows_partial, C32_round_trip_partial, C32_row_order_refuted, C33_times, C33_times_with_text, C34_accent_refuted, C34_as_is, C34_characters_partial, C34_long_text_partial, C34_rows_refuted, C34_style_refuted, C35_code_and_back, C35_other_rate_refuted, C48_as_is, C48_rows_partial, C59_equal_is_same_place, C59_horizontal_equality, C59_horizontal_symmetric, C59_proportional_equivalence_partial, C59_vertical_equality, C60_strict_weak, C60_vertical_order, C61_all_as_seconds, C62_any_rgb, C62_any_rgba, C62_rgb_hex, C62_rgba_hex, C63_points_to_proportion, C63_proportion_to_points, C63_round_trip_partial, C64_block_equality, C66_as_is, C66_rows_kept_partial, C69_subtitle_number_as_is, C69_subtitle_number_refuted, C79_as_is, C79_position_partial, C81_any_text, C81_nearest_float, C87_header_back, C88_written_is_read, C92_fraction, C92_max_as_is, C92_max_first_partial, C92_max_second, C99_no_room_refuted, C99_not_opened_refuted, C99_part_of_written, C99_stopped_anywhere.
<!-- assumptions end -->

## 5. What is modelled and what is not

All functions of all files in /repo/src that are part of the library, and the program dumpsubs, are modelled, with these
exceptions and simplifications:

* Third-party code is modelled from its documentation: boost (split, trim, to_lower, starts_with, replace_all, lexical_cast,
  regex on the three patterns of subrip_reader.cc and web_vtt_reader.cc, filesystem::path::extension, locale utf_to_utf), the C library (sscanf,
  strtoll, atoi, fgets, snprintf, localeconv, getopt_long) and the C++ library (stable_sort, iostreams, map).
* boost::regex gives up with a std::runtime_error when a search takes about 100 million steps, which a font tag of tens of
  thousands of bytes in a SubRip string can need; the model has no such limit.
* I/O errors other than the end of the file and a file that is not there.  Failed writes are modelled for
  write_stl_binary (C99) only, and not the text mode of streams on Windows.
* The file and line number inside a ProgrammingError (the message as a function of them is modelled).
* What has been printed before an exception ends the program (warnings are modelled for STLTextReader itself, C96).
* Memory: allocation failure, and sizes above the range of size_t.  Text lengths above 2^31 are excluded by hypotheses
  where the code converts them to int.
* spec_no of compose overflows for format strings with more than nine digits after a percent sign; the library has none.
* Time and date: the header dates of write_stl_binary are arguments in the code as well.
* `char` is signed, `int` has 32 bits, `float` and `double` are IEEE 754 without excess precision, as on x86-64.
* Undefined behaviour ends the execution with `Undef`; nothing is claimed about what happens afterwards.
* The order of evaluation of the global tables (static initialisation) is not modelled; they are complete before use.
* iso6937.py, which was used to make iso6937_tables.cc, and the build files.
* Threads: the library makes none.  The tables of iso6937.cc are its only global variables that change; Model/Threads.v has
  threads that use them at the same time (C98), with steps of the size of one character or one assignment, and operator[]
  with a key that is there taken for a read.  Everything else is modelled for a single thread.

## 6. Findings

Where the code does not do what a user relies on, there is a theorem with the suffix `_refuted`, with a concrete witness
computed by the kernel, beside the part that does hold (`_partial` where it is part of the property).

Times
* Times with different rates are compared wrongly within a second: the products are swapped (12 frames at 24 against 300 at
  1000; 1 at 25 against 40 at 1000).  C03.
* At 60000/1001 comparing two Times of one second overflows int from frame 36 on.  C02.
* frames_at can equal the rate (999 ms at 25 gives 25), and so can scale.  C10.
* add truncates (1 + 6 frames at 25 give 6).  C09.
* max of two Rationals compares doubles.  C92.
* unsigned long long is printed as signed.  C97.

Positions, colours, sizes
* Line without lines is undefined behaviour in fraction_from_screen_top.  C60.
* Equality of vertical positions is not reflexive when unset, and not transitive; that of horizontal positions is a
  tolerance.  C59.
* 7 points at height 1080 become 6.  C63.
* Hexadecimal colours take signs, 0x and spaces ("f -70xyz" is 15, -7, 0).  C62_any_rgb.

collect
* Pieces that start together but end apart, in turns, are not merged.  C14.

SubRip
* `</font>` with none open reads the back of an empty vector; large hours overflow int.  C39.
* A right-to-left mark is removed only after the last tag of a line.  C42.
* `{\..}` tags restyle earlier text on the line; the font stack starts again on each line while the colour continues.  C70.
* Reading a FILE splits lines of more than 254 bytes and cuts them at NULs; the context of an error has line ends left in
  it.  C40 (also WebVTT C73, SSA C77).

WebVTT
* mm:ss.ttt is refused, and so are one to three or more than four cue settings; the message talks of a comma.  C72.

SSA
* Positions of `\pos` are moved by the style's vertical margin (C79); `\fscx` sets size 0 and `\clip` throws (C76); `\\n` is
  counted but not made a line break (C48); V4 alignments are read as V4+ (C80); the default colour is 255 rather than 1;
  a colour without its closing ampersand loses a digit; int overflow (C78).

Text STL
* The start time loses its last character if there is no space before the comma (C52); a last line without newline is lost
  (C54); line numbers count bars since the last piece (C53); styles persist from one subtitle to the next; bad numbers
  throw boost's bad_lexical_cast (C83); int overflow (C84).
* Files of less than 11 bytes are read as empty (C55).  Warnings go to standard output, where dumpsubs writes too (C95, C96).

Binary STL
* 23.976 is read as 23; rates without a code are written as 25.  C35.
* Rows can become negative after correction (C30); rows that do not go downwards are merged (C32); rows 7 and 14 of 23 move
  up when a file is rewritten (C66).
* Numbers too long for their field lose their last digits, negative revision numbers are not refused and -12 is written as
  "-1" (C25); subtitle numbers are 0 (C69); block 255 looks like the
  last (C26); the frame byte can equal the rate (C27).
* Long texts: italics are forgotten at a block boundary, rows begin again, and an accented character can be cut in two.  C34.
* Subtitles without `lines` (all SubRip input) are undefined behaviour in the writer.  C28.
* "U8" is read as Latin/Hebrew (C22); the UTF8 language group has no code (C20).

ISO 6937
* Unassigned accent bytes 0xC9 and 0xCC dereference a null pointer.  C18.
* '$' becomes U+00A4; the ogonek is taken for U+032B; no-break space and # at A6 are missing.  C15, C65.
* Lookups insert missing keys, so U+0000 encodes to the first stray byte decoded before.  C16, C17.
* Combining marks on their own do not come back.  C29, C32.
* The tables are made on first use without a lock, and lookups write to them: conversions in two threads race.  C98.
* write_stl_binary does not look at the state of the stream: it returns as usual if the file cannot be opened, or was not
  written completely.  C99.
* Carriage returns before newlines change where the readers of files cut long lines.  C101.
* The text STL reader does not know the byte order mark: with one the first line is not understood, or the file cannot be
  read.  The SSA reader does not trim white space after it.  C102.
* SubRip and WebVTT milliseconds of eight digits are read, but overflow an int when collect() compares them.  C103.
* An SSA dialogue whose text field comes before its start has no rate, and collect() throws.  C103, C104.
* What the SubRip, WebVTT and text STL readers give never has the number of lines that write_stl_binary asks for: writing
  any of it is undefined behaviour.  So is writing what a binary STL file gives whose header says 00 rows, or an SSA file with
  a position far off the screen.  C105.
* Colours are lost when a binary STL file is saved.  C106.
* A WebVTT line that ends in U+2028, and a control code at the start of a row of a binary STL file, give a piece without text; a byte 10 in the text of a binary STL file gives a piece on two lines.  C108.
* A backslash in SSA, or a caret in text STL, takes away one byte of the character after it; a 255-byte buffer can end within a
  character.  C109.
* The colour of an SSA style without PrimaryColour is (255, 255, 255); SubRip rgba() numbers may exceed 255.  C110.
* A combining mark in SSA text (decomposed accents) moves to the next letter when it is converted to binary STL.  C119.
* A line that ends in an empty italic or underlined piece makes a saved file change when it is saved again.  C120.
* After reading a binary STL file with a byte that means nothing, a NUL in a text is written as that byte.  C121.
* In text STL, ^I without a second ^I, and a bar at the end of a text, change the subtitles after it; in binary STL one subtitle that is too low moves all the others.  C122.
* WebVTT's own markup (`<i>`, `<b>`, `<u>`) is shown as text, while the same tags in a SubRip file are understood.  C124.
* In SSA a margin of a dialogue is lost if the Format line names it before the style.  C126.
* `{\pos(1,nan)}` in a SubRip file gives a position that is not equal to itself, so that its line comes apart.  C127.
* Every reader accepts a subtitle that ends before it starts, without an error or a warning.  C129.
* Time::scale(1) rounds frames shorter than a millisecond away; adding zero with Time::add can take a frame away.  C115, C118.

Other
* compose skips empty arguments.  C58.
* The byte that ends an invalid UTF-8 sequence is lost too.  C67_any_bytes.
* A missing .srt file throws ProgrammingError, a missing .stl file reads as empty.  C55.
* dump's style tags can overlap.  C56.
* Blocks of user data (extension block number FE) of a binary STL file are read as subtitles.  C131_refuted.
* The maximum number of characters in the header of a binary STL file is a number of bytes.  C132_refuted.
* The first in-cue time code in that header is always zero.  C133_refuted.
* That header says code page 850, but its texts are written and read as UTF-8.  C134_written_refuted, C134_read_refuted.

## 7. Testing the theorems against wrong programs

seeded/LOG.jsonl has one line for each edit of the model that was tried.  Most edits are made by a program that picks a
place at random and changes an operator, a number, a literal, a constructor or an update there; some are made by hand.
Each is made in a copy of the development (without theories/Tests), which is then rebuilt up to the first file that no
longer checks.  If what fails there is only a concrete example or a refutation, the build goes on, to find out whether a
general theorem fails too.

How to read a line:

- `first_failure` is the lemma or theorem at which the build stopped.  It is observed.
- `theorems_failed` are the theorems of the manifest that use that lemma, directly or not, so that they no longer check.
  The list is computed from the references in the compiled files.  It is not claimed that each of them is false of the
  edited program, nor that no other theorem fails.
- `claim_broken` is assigned, not observed.  It starts as the property that the edited definition mainly serves (or, for
  edits made by hand, the one the edit was meant to break).  Where that property is not among `theorems_failed`, the
  script that wrote the log put in its place the nearest property that is, so `claim_broken` always appears to be caught.
- `claim_expected` is the one expected first, on lines where it was replaced.  There were 73; those that could be tried
  again were, and where the expected property turned out to fail it was put back.  33 lines still have the field.  On
  28 of them the theorems of the expected property were seen to check on the edited program.  Reading the definitions, the
  property does not depend on what was changed, or its number had been mistaken; this is a judgement, not a proof.  On the
  other 5 it was not checked.  On all 33 the edit need not make `claim_broken` false.
- `claim_checked` says that the proof of the claimed property was itself looked at: lemmas that it does not use were
  skipped in the scratch copy, and the build went on to it.  This was done for 80 lines; the others were not checked in this way.
- `theorems_tightened` are the theorems that were added or strengthened because the edit was not noticed before.

Edits that were not noticed are either equivalent programs (the log says why) or led to new theorems: C62_any_*,
C67_any_bytes, C81_any_text, C81_every_text, C89, C90, C91, C92.

C129_collect and C12 were found too weak late, because `claim_broken` had been replaced (see above): the edits had been
logged under other properties.  C129_collect had assumed `collectable`, which itself says that collect() groups correctly;
it now assumes only that the times can be compared.  C12 used the equality of positions of the model in its specification;
C12_lines_by_place uses that of Spec/PositionSpec.v.
