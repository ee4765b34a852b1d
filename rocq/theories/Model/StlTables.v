(** GENERATED by tools/gen_tables.py from /repo/src/stl_binary_tables.{h,cc}. *)
From Coq Require Import ZArith List Bool Ascii String.
From Verif.Model Require Import Base Strings Compose.
Import ListNotations.
Local Open Scope Z_scope.

(** enum DisplayStandard, stl_binary_tables.h 29-34. *)
Inductive display_standard : Type :=
| DISPLAY_STANDARD_UNDEFINED | DISPLAY_STANDARD_OPEN_SUBTITLING | DISPLAY_STANDARD_LEVEL_1_TELETEXT | DISPLAY_STANDARD_LEVEL_2_TELETEXT.
(** == on this enum (stl_binary_tables.cc 48-73). *)
Definition display_standard_eqb (a b : display_standard) : bool :=
  Nat.eqb (match a with
    | DISPLAY_STANDARD_UNDEFINED => 0 | DISPLAY_STANDARD_OPEN_SUBTITLING => 1 | DISPLAY_STANDARD_LEVEL_1_TELETEXT => 2 | DISPLAY_STANDARD_LEVEL_2_TELETEXT => 3 end)%nat
          (match b with
    | DISPLAY_STANDARD_UNDEFINED => 0 | DISPLAY_STANDARD_OPEN_SUBTITLING => 1 | DISPLAY_STANDARD_LEVEL_1_TELETEXT => 2 | DISPLAY_STANDARD_LEVEL_2_TELETEXT => 3 end)%nat.

(** enum LanguageGroup, stl_binary_tables.h 36-43. *)
Inductive language_group : Type :=
| LANGUAGE_GROUP_LATIN | LANGUAGE_GROUP_LATIN_CYRILLIC | LANGUAGE_GROUP_LATIN_ARABIC | LANGUAGE_GROUP_LATIN_GREEK
| LANGUAGE_GROUP_LATIN_HEBREW | LANGUAGE_GROUP_UTF8.
(** == on this enum (stl_binary_tables.cc 48-73). *)
Definition language_group_eqb (a b : language_group) : bool :=
  Nat.eqb (match a with
    | LANGUAGE_GROUP_LATIN => 0 | LANGUAGE_GROUP_LATIN_CYRILLIC => 1 | LANGUAGE_GROUP_LATIN_ARABIC => 2 | LANGUAGE_GROUP_LATIN_GREEK => 3
    | LANGUAGE_GROUP_LATIN_HEBREW => 4 | LANGUAGE_GROUP_UTF8 => 5 end)%nat
          (match b with
    | LANGUAGE_GROUP_LATIN => 0 | LANGUAGE_GROUP_LATIN_CYRILLIC => 1 | LANGUAGE_GROUP_LATIN_ARABIC => 2 | LANGUAGE_GROUP_LATIN_GREEK => 3
    | LANGUAGE_GROUP_LATIN_HEBREW => 4 | LANGUAGE_GROUP_UTF8 => 5 end)%nat.

(** enum Language, stl_binary_tables.h 45-149. *)
Inductive language : Type :=
| LANGUAGE_UNKNOWN | LANGUAGE_ALBANIAN | LANGUAGE_BRETON | LANGUAGE_CATALAN
| LANGUAGE_CROATIAN | LANGUAGE_WELSH | LANGUAGE_CZECH | LANGUAGE_DANISH
| LANGUAGE_GERMAN | LANGUAGE_ENGLISH | LANGUAGE_SPANISH | LANGUAGE_ESPERANTO
| LANGUAGE_ESTONIAN | LANGUAGE_BASQUE | LANGUAGE_FAROESE | LANGUAGE_FRENCH
| LANGUAGE_FRISIAN | LANGUAGE_IRISH | LANGUAGE_GAELIC | LANGUAGE_GALACIAN
| LANGUAGE_ICELANDIC | LANGUAGE_ITALIAN | LANGUAGE_LAPPISH | LANGUAGE_LATIN
| LANGUAGE_LATVIAN | LANGUAGE_LUXEMBORGIAN | LANGUAGE_LITHUANIAN | LANGUAGE_HUNGARIAN
| LANGUAGE_MALTESE | LANGUAGE_DUTCH | LANGUAGE_NORWEGIAN | LANGUAGE_OCCITAN
| LANGUAGE_POLISH | LANGUAGE_PORTUGESE | LANGUAGE_ROMANIAN | LANGUAGE_ROMANSH
| LANGUAGE_SERBIAN | LANGUAGE_SLOVAK | LANGUAGE_SLOVENIAN | LANGUAGE_FINNISH
| LANGUAGE_SWEDISH | LANGUAGE_TURKISH | LANGUAGE_FLEMISH | LANGUAGE_WALLON
| LANGUAGE_AMHARIC | LANGUAGE_ARABIC | LANGUAGE_ARMENIAN | LANGUAGE_ASSAMESE
| LANGUAGE_AZERBAIJANI | LANGUAGE_BAMBORA | LANGUAGE_BIELORUSSIAN | LANGUAGE_BENGALI
| LANGUAGE_BULGARIAN | LANGUAGE_BURMESE | LANGUAGE_CHINESE | LANGUAGE_CHURASH
| LANGUAGE_DARI | LANGUAGE_FULANI | LANGUAGE_GEORGIAN | LANGUAGE_GREEK
| LANGUAGE_GUJURATI | LANGUAGE_GURANI | LANGUAGE_HAUSA | LANGUAGE_HEBREW
| LANGUAGE_HINDI | LANGUAGE_INDONESIAN | LANGUAGE_JAPANESE | LANGUAGE_KANNADA
| LANGUAGE_KAZAKH | LANGUAGE_KHMER | LANGUAGE_KOREAN | LANGUAGE_LAOTIAN
| LANGUAGE_MACEDONIAN | LANGUAGE_MALAGASAY | LANGUAGE_MALAYSIAN | LANGUAGE_MOLDAVIAN
| LANGUAGE_MARATHI | LANGUAGE_NDEBELE | LANGUAGE_NEPALI | LANGUAGE_ORIYA
| LANGUAGE_PAPAMIENTO | LANGUAGE_PERSIAN | LANGUAGE_PUNJABI | LANGUAGE_PUSHTU
| LANGUAGE_QUECHUA | LANGUAGE_RUSSIAN | LANGUAGE_RUTHENIAN | LANGUAGE_SERBO_CROAT
| LANGUAGE_SHONA | LANGUAGE_SINHALESE | LANGUAGE_SOMALI | LANGUAGE_SRANAN_TONGO
| LANGUAGE_SWAHILI | LANGUAGE_TADZHIK | LANGUAGE_TAMIL | LANGUAGE_TATAR
| LANGUAGE_TELUGU | LANGUAGE_THAI | LANGUAGE_UKRANIAN | LANGUAGE_URDU
| LANGUAGE_UZBEK | LANGUAGE_VIETNAMESE | LANGUAGE_ZULU.
(** == on this enum (stl_binary_tables.cc 48-73). *)
Definition language_eqb (a b : language) : bool :=
  Nat.eqb (match a with
    | LANGUAGE_UNKNOWN => 0 | LANGUAGE_ALBANIAN => 1 | LANGUAGE_BRETON => 2 | LANGUAGE_CATALAN => 3
    | LANGUAGE_CROATIAN => 4 | LANGUAGE_WELSH => 5 | LANGUAGE_CZECH => 6 | LANGUAGE_DANISH => 7
    | LANGUAGE_GERMAN => 8 | LANGUAGE_ENGLISH => 9 | LANGUAGE_SPANISH => 10 | LANGUAGE_ESPERANTO => 11
    | LANGUAGE_ESTONIAN => 12 | LANGUAGE_BASQUE => 13 | LANGUAGE_FAROESE => 14 | LANGUAGE_FRENCH => 15
    | LANGUAGE_FRISIAN => 16 | LANGUAGE_IRISH => 17 | LANGUAGE_GAELIC => 18 | LANGUAGE_GALACIAN => 19
    | LANGUAGE_ICELANDIC => 20 | LANGUAGE_ITALIAN => 21 | LANGUAGE_LAPPISH => 22 | LANGUAGE_LATIN => 23
    | LANGUAGE_LATVIAN => 24 | LANGUAGE_LUXEMBORGIAN => 25 | LANGUAGE_LITHUANIAN => 26 | LANGUAGE_HUNGARIAN => 27
    | LANGUAGE_MALTESE => 28 | LANGUAGE_DUTCH => 29 | LANGUAGE_NORWEGIAN => 30 | LANGUAGE_OCCITAN => 31
    | LANGUAGE_POLISH => 32 | LANGUAGE_PORTUGESE => 33 | LANGUAGE_ROMANIAN => 34 | LANGUAGE_ROMANSH => 35
    | LANGUAGE_SERBIAN => 36 | LANGUAGE_SLOVAK => 37 | LANGUAGE_SLOVENIAN => 38 | LANGUAGE_FINNISH => 39
    | LANGUAGE_SWEDISH => 40 | LANGUAGE_TURKISH => 41 | LANGUAGE_FLEMISH => 42 | LANGUAGE_WALLON => 43
    | LANGUAGE_AMHARIC => 44 | LANGUAGE_ARABIC => 45 | LANGUAGE_ARMENIAN => 46 | LANGUAGE_ASSAMESE => 47
    | LANGUAGE_AZERBAIJANI => 48 | LANGUAGE_BAMBORA => 49 | LANGUAGE_BIELORUSSIAN => 50 | LANGUAGE_BENGALI => 51
    | LANGUAGE_BULGARIAN => 52 | LANGUAGE_BURMESE => 53 | LANGUAGE_CHINESE => 54 | LANGUAGE_CHURASH => 55
    | LANGUAGE_DARI => 56 | LANGUAGE_FULANI => 57 | LANGUAGE_GEORGIAN => 58 | LANGUAGE_GREEK => 59
    | LANGUAGE_GUJURATI => 60 | LANGUAGE_GURANI => 61 | LANGUAGE_HAUSA => 62 | LANGUAGE_HEBREW => 63
    | LANGUAGE_HINDI => 64 | LANGUAGE_INDONESIAN => 65 | LANGUAGE_JAPANESE => 66 | LANGUAGE_KANNADA => 67
    | LANGUAGE_KAZAKH => 68 | LANGUAGE_KHMER => 69 | LANGUAGE_KOREAN => 70 | LANGUAGE_LAOTIAN => 71
    | LANGUAGE_MACEDONIAN => 72 | LANGUAGE_MALAGASAY => 73 | LANGUAGE_MALAYSIAN => 74 | LANGUAGE_MOLDAVIAN => 75
    | LANGUAGE_MARATHI => 76 | LANGUAGE_NDEBELE => 77 | LANGUAGE_NEPALI => 78 | LANGUAGE_ORIYA => 79
    | LANGUAGE_PAPAMIENTO => 80 | LANGUAGE_PERSIAN => 81 | LANGUAGE_PUNJABI => 82 | LANGUAGE_PUSHTU => 83
    | LANGUAGE_QUECHUA => 84 | LANGUAGE_RUSSIAN => 85 | LANGUAGE_RUTHENIAN => 86 | LANGUAGE_SERBO_CROAT => 87
    | LANGUAGE_SHONA => 88 | LANGUAGE_SINHALESE => 89 | LANGUAGE_SOMALI => 90 | LANGUAGE_SRANAN_TONGO => 91
    | LANGUAGE_SWAHILI => 92 | LANGUAGE_TADZHIK => 93 | LANGUAGE_TAMIL => 94 | LANGUAGE_TATAR => 95
    | LANGUAGE_TELUGU => 96 | LANGUAGE_THAI => 97 | LANGUAGE_UKRANIAN => 98 | LANGUAGE_URDU => 99
    | LANGUAGE_UZBEK => 100 | LANGUAGE_VIETNAMESE => 101 | LANGUAGE_ZULU => 102 end)%nat
          (match b with
    | LANGUAGE_UNKNOWN => 0 | LANGUAGE_ALBANIAN => 1 | LANGUAGE_BRETON => 2 | LANGUAGE_CATALAN => 3
    | LANGUAGE_CROATIAN => 4 | LANGUAGE_WELSH => 5 | LANGUAGE_CZECH => 6 | LANGUAGE_DANISH => 7
    | LANGUAGE_GERMAN => 8 | LANGUAGE_ENGLISH => 9 | LANGUAGE_SPANISH => 10 | LANGUAGE_ESPERANTO => 11
    | LANGUAGE_ESTONIAN => 12 | LANGUAGE_BASQUE => 13 | LANGUAGE_FAROESE => 14 | LANGUAGE_FRENCH => 15
    | LANGUAGE_FRISIAN => 16 | LANGUAGE_IRISH => 17 | LANGUAGE_GAELIC => 18 | LANGUAGE_GALACIAN => 19
    | LANGUAGE_ICELANDIC => 20 | LANGUAGE_ITALIAN => 21 | LANGUAGE_LAPPISH => 22 | LANGUAGE_LATIN => 23
    | LANGUAGE_LATVIAN => 24 | LANGUAGE_LUXEMBORGIAN => 25 | LANGUAGE_LITHUANIAN => 26 | LANGUAGE_HUNGARIAN => 27
    | LANGUAGE_MALTESE => 28 | LANGUAGE_DUTCH => 29 | LANGUAGE_NORWEGIAN => 30 | LANGUAGE_OCCITAN => 31
    | LANGUAGE_POLISH => 32 | LANGUAGE_PORTUGESE => 33 | LANGUAGE_ROMANIAN => 34 | LANGUAGE_ROMANSH => 35
    | LANGUAGE_SERBIAN => 36 | LANGUAGE_SLOVAK => 37 | LANGUAGE_SLOVENIAN => 38 | LANGUAGE_FINNISH => 39
    | LANGUAGE_SWEDISH => 40 | LANGUAGE_TURKISH => 41 | LANGUAGE_FLEMISH => 42 | LANGUAGE_WALLON => 43
    | LANGUAGE_AMHARIC => 44 | LANGUAGE_ARABIC => 45 | LANGUAGE_ARMENIAN => 46 | LANGUAGE_ASSAMESE => 47
    | LANGUAGE_AZERBAIJANI => 48 | LANGUAGE_BAMBORA => 49 | LANGUAGE_BIELORUSSIAN => 50 | LANGUAGE_BENGALI => 51
    | LANGUAGE_BULGARIAN => 52 | LANGUAGE_BURMESE => 53 | LANGUAGE_CHINESE => 54 | LANGUAGE_CHURASH => 55
    | LANGUAGE_DARI => 56 | LANGUAGE_FULANI => 57 | LANGUAGE_GEORGIAN => 58 | LANGUAGE_GREEK => 59
    | LANGUAGE_GUJURATI => 60 | LANGUAGE_GURANI => 61 | LANGUAGE_HAUSA => 62 | LANGUAGE_HEBREW => 63
    | LANGUAGE_HINDI => 64 | LANGUAGE_INDONESIAN => 65 | LANGUAGE_JAPANESE => 66 | LANGUAGE_KANNADA => 67
    | LANGUAGE_KAZAKH => 68 | LANGUAGE_KHMER => 69 | LANGUAGE_KOREAN => 70 | LANGUAGE_LAOTIAN => 71
    | LANGUAGE_MACEDONIAN => 72 | LANGUAGE_MALAGASAY => 73 | LANGUAGE_MALAYSIAN => 74 | LANGUAGE_MOLDAVIAN => 75
    | LANGUAGE_MARATHI => 76 | LANGUAGE_NDEBELE => 77 | LANGUAGE_NEPALI => 78 | LANGUAGE_ORIYA => 79
    | LANGUAGE_PAPAMIENTO => 80 | LANGUAGE_PERSIAN => 81 | LANGUAGE_PUNJABI => 82 | LANGUAGE_PUSHTU => 83
    | LANGUAGE_QUECHUA => 84 | LANGUAGE_RUSSIAN => 85 | LANGUAGE_RUTHENIAN => 86 | LANGUAGE_SERBO_CROAT => 87
    | LANGUAGE_SHONA => 88 | LANGUAGE_SINHALESE => 89 | LANGUAGE_SOMALI => 90 | LANGUAGE_SRANAN_TONGO => 91
    | LANGUAGE_SWAHILI => 92 | LANGUAGE_TADZHIK => 93 | LANGUAGE_TAMIL => 94 | LANGUAGE_TATAR => 95
    | LANGUAGE_TELUGU => 96 | LANGUAGE_THAI => 97 | LANGUAGE_UKRANIAN => 98 | LANGUAGE_URDU => 99
    | LANGUAGE_UZBEK => 100 | LANGUAGE_VIETNAMESE => 101 | LANGUAGE_ZULU => 102 end)%nat.

(** enum TimecodeStatus, stl_binary_tables.h 151-154. *)
Inductive timecode_status : Type :=
| TIMECODE_STATUS_NOT_INTENDED_FOR_USE | TIMECODE_STATUS_INTENDED_FOR_USE.
(** == on this enum (stl_binary_tables.cc 48-73). *)
Definition timecode_status_eqb (a b : timecode_status) : bool :=
  Nat.eqb (match a with
    | TIMECODE_STATUS_NOT_INTENDED_FOR_USE => 0 | TIMECODE_STATUS_INTENDED_FOR_USE => 1 end)%nat
          (match b with
    | TIMECODE_STATUS_NOT_INTENDED_FOR_USE => 0 | TIMECODE_STATUS_INTENDED_FOR_USE => 1 end)%nat.

(** enum CumulativeStatus, stl_binary_tables.h 156-161. *)
Inductive cumulative_status : Type :=
| CUMULATIVE_STATUS_NOT_CUMULATIVE | CUMULATIVE_STATUS_FIRST | CUMULATIVE_STATUS_INTERMEDIATE | CUMULATIVE_STATUS_LAST.
(** == on this enum (stl_binary_tables.cc 48-73). *)
Definition cumulative_status_eqb (a b : cumulative_status) : bool :=
  Nat.eqb (match a with
    | CUMULATIVE_STATUS_NOT_CUMULATIVE => 0 | CUMULATIVE_STATUS_FIRST => 1 | CUMULATIVE_STATUS_INTERMEDIATE => 2 | CUMULATIVE_STATUS_LAST => 3 end)%nat
          (match b with
    | CUMULATIVE_STATUS_NOT_CUMULATIVE => 0 | CUMULATIVE_STATUS_FIRST => 1 | CUMULATIVE_STATUS_INTERMEDIATE => 2 | CUMULATIVE_STATUS_LAST => 3 end)%nat.

(** enum Justification, stl_binary_tables.h 163-168. *)
Inductive justification : Type :=
| JUSTIFICATION_NONE | JUSTIFICATION_LEFT | JUSTIFICATION_CENTRE | JUSTIFICATION_RIGHT.
(** == on this enum (stl_binary_tables.cc 48-73). *)
Definition justification_eqb (a b : justification) : bool :=
  Nat.eqb (match a with
    | JUSTIFICATION_NONE => 0 | JUSTIFICATION_LEFT => 1 | JUSTIFICATION_CENTRE => 2 | JUSTIFICATION_RIGHT => 3 end)%nat
          (match b with
    | JUSTIFICATION_NONE => 0 | JUSTIFICATION_LEFT => 1 | JUSTIFICATION_CENTRE => 2 | JUSTIFICATION_RIGHT => 3 end)%nat.

(** enum Comment, stl_binary_tables.h 170-173. *)
Inductive stl_comment : Type :=
| COMMENT_NO | COMMENT_YES.
(** == on this enum (stl_binary_tables.cc 48-73). *)
Definition stl_comment_eqb (a b : stl_comment) : bool :=
  Nat.eqb (match a with
    | COMMENT_NO => 0 | COMMENT_YES => 1 end)%nat
          (match b with
    | COMMENT_NO => 0 | COMMENT_YES => 1 end)%nat.

(** A std::map<F, STLBinaryCode<E>>: key, value, description; in the order of the keys. *)
Definition stl_table (F E : Type) : Type := list (F * (E * string)).

(** _display_standard_map, stl_binary_tables.cc 204-207. *)
Definition display_standard_map : stl_table string display_standard :=
  [(" "%string, (DISPLAY_STANDARD_UNDEFINED, "Undefined"%string));
   ("0"%string, (DISPLAY_STANDARD_OPEN_SUBTITLING, "Open subtitling"%string));
   ("1"%string, (DISPLAY_STANDARD_LEVEL_1_TELETEXT, "Level 1 teletext"%string));
   ("2"%string, (DISPLAY_STANDARD_LEVEL_2_TELETEXT, "Level 2 teletext"%string))].

(** _language_group_map, stl_binary_tables.cc 209-214. *)
Definition language_group_map : stl_table string language_group :=
  [("00"%string, (LANGUAGE_GROUP_LATIN, "Latin"%string));
   ("01"%string, (LANGUAGE_GROUP_LATIN_CYRILLIC, "Latin/Cyrillic"%string));
   ("02"%string, (LANGUAGE_GROUP_LATIN_ARABIC, "Latin/Arabic"%string));
   ("03"%string, (LANGUAGE_GROUP_LATIN_GREEK, "Latin/Greek"%string));
   ("04"%string, (LANGUAGE_GROUP_LATIN_HEBREW, "Latin/Hebrew"%string));
   ("U8"%string, (LANGUAGE_GROUP_LATIN_HEBREW, "UTF-8"%string))].

(** _language_map, stl_binary_tables.cc 216-318. *)
Definition language_map : stl_table string language :=
  [("00"%string, (LANGUAGE_UNKNOWN, "Unknown"%string));
   ("01"%string, (LANGUAGE_ALBANIAN, "Albanian"%string));
   ("02"%string, (LANGUAGE_BRETON, "Breton"%string));
   ("03"%string, (LANGUAGE_CATALAN, "Catalan"%string));
   ("04"%string, (LANGUAGE_CROATIAN, "Croatian"%string));
   ("05"%string, (LANGUAGE_WELSH, "Welsh"%string));
   ("06"%string, (LANGUAGE_CZECH, "Czech"%string));
   ("07"%string, (LANGUAGE_DANISH, "Danish"%string));
   ("08"%string, (LANGUAGE_GERMAN, "German"%string));
   ("09"%string, (LANGUAGE_ENGLISH, "English"%string));
   ("0A"%string, (LANGUAGE_SPANISH, "Spanish"%string));
   ("0B"%string, (LANGUAGE_ESPERANTO, "Esperanto"%string));
   ("0C"%string, (LANGUAGE_ESTONIAN, "Estonian"%string));
   ("0D"%string, (LANGUAGE_BASQUE, "Basque"%string));
   ("0E"%string, (LANGUAGE_FAROESE, "Faroese"%string));
   ("0F"%string, (LANGUAGE_FRENCH, "French"%string));
   ("10"%string, (LANGUAGE_FRISIAN, "Frisian"%string));
   ("11"%string, (LANGUAGE_IRISH, "Irish"%string));
   ("12"%string, (LANGUAGE_GAELIC, "Gaelic"%string));
   ("13"%string, (LANGUAGE_GALACIAN, "Galacian"%string));
   ("14"%string, (LANGUAGE_ICELANDIC, "Icelandic"%string));
   ("15"%string, (LANGUAGE_ITALIAN, "Italian"%string));
   ("16"%string, (LANGUAGE_LAPPISH, "Lappish"%string));
   ("17"%string, (LANGUAGE_LATIN, "Latin"%string));
   ("18"%string, (LANGUAGE_LATVIAN, "Latvian"%string));
   ("19"%string, (LANGUAGE_LUXEMBORGIAN, "Luxemborgian"%string));
   ("1A"%string, (LANGUAGE_LITHUANIAN, "Lithuanian"%string));
   ("1B"%string, (LANGUAGE_HUNGARIAN, "Hungarian"%string));
   ("1C"%string, (LANGUAGE_MALTESE, "Maltese"%string));
   ("1D"%string, (LANGUAGE_DUTCH, "Dutch"%string));
   ("1E"%string, (LANGUAGE_NORWEGIAN, "Norwegian"%string));
   ("1F"%string, (LANGUAGE_OCCITAN, "Occitan"%string));
   ("20"%string, (LANGUAGE_POLISH, "Polish"%string));
   ("21"%string, (LANGUAGE_PORTUGESE, "Portugese"%string));
   ("22"%string, (LANGUAGE_ROMANIAN, "Romanian"%string));
   ("23"%string, (LANGUAGE_ROMANSH, "Romansh"%string));
   ("24"%string, (LANGUAGE_SERBIAN, "Serbian"%string));
   ("25"%string, (LANGUAGE_SLOVAK, "Slovak"%string));
   ("26"%string, (LANGUAGE_SLOVENIAN, "Slovenian"%string));
   ("27"%string, (LANGUAGE_FINNISH, "Finnish"%string));
   ("28"%string, (LANGUAGE_SWEDISH, "Swedish"%string));
   ("29"%string, (LANGUAGE_TURKISH, "Turkish"%string));
   ("2A"%string, (LANGUAGE_FLEMISH, "Flemish"%string));
   ("2B"%string, (LANGUAGE_WALLON, "Wallon"%string));
   ("45"%string, (LANGUAGE_ZULU, "Zulu"%string));
   ("46"%string, (LANGUAGE_VIETNAMESE, "Vietnamese"%string));
   ("47"%string, (LANGUAGE_UZBEK, "Uzbek"%string));
   ("48"%string, (LANGUAGE_URDU, "Urdu"%string));
   ("49"%string, (LANGUAGE_UKRANIAN, "Ukranian"%string));
   ("4A"%string, (LANGUAGE_THAI, "Thai"%string));
   ("4B"%string, (LANGUAGE_TELUGU, "Telugu"%string));
   ("4C"%string, (LANGUAGE_TATAR, "Tatar"%string));
   ("4D"%string, (LANGUAGE_TAMIL, "Tamil"%string));
   ("4E"%string, (LANGUAGE_TADZHIK, "Tadzhik"%string));
   ("4F"%string, (LANGUAGE_SWAHILI, "Swahili"%string));
   ("50"%string, (LANGUAGE_SRANAN_TONGO, "Sranan Tongo"%string));
   ("51"%string, (LANGUAGE_SOMALI, "Somali"%string));
   ("52"%string, (LANGUAGE_SINHALESE, "Sinhalese"%string));
   ("53"%string, (LANGUAGE_SHONA, "Shona"%string));
   ("54"%string, (LANGUAGE_SERBO_CROAT, "Serbo Croat"%string));
   ("55"%string, (LANGUAGE_RUTHENIAN, "Ruthenian"%string));
   ("56"%string, (LANGUAGE_RUSSIAN, "Russian"%string));
   ("57"%string, (LANGUAGE_QUECHUA, "Quechua"%string));
   ("58"%string, (LANGUAGE_PUSHTU, "Pushtu"%string));
   ("59"%string, (LANGUAGE_PUNJABI, "Punjabi"%string));
   ("5A"%string, (LANGUAGE_PERSIAN, "Persian"%string));
   ("5B"%string, (LANGUAGE_PAPAMIENTO, "Papamiento"%string));
   ("5C"%string, (LANGUAGE_ORIYA, "Oriya"%string));
   ("5D"%string, (LANGUAGE_NEPALI, "Nepali"%string));
   ("5E"%string, (LANGUAGE_NDEBELE, "Ndebele"%string));
   ("5F"%string, (LANGUAGE_MARATHI, "Marathi"%string));
   ("60"%string, (LANGUAGE_MOLDAVIAN, "Moldavian"%string));
   ("61"%string, (LANGUAGE_MALAYSIAN, "Malaysian"%string));
   ("62"%string, (LANGUAGE_MALAGASAY, "Malagasay"%string));
   ("63"%string, (LANGUAGE_MACEDONIAN, "Macedonian"%string));
   ("64"%string, (LANGUAGE_LAOTIAN, "Laotian"%string));
   ("65"%string, (LANGUAGE_KOREAN, "Korean"%string));
   ("66"%string, (LANGUAGE_KHMER, "Khmer"%string));
   ("67"%string, (LANGUAGE_KAZAKH, "Kazakh"%string));
   ("68"%string, (LANGUAGE_KANNADA, "Kannada"%string));
   ("69"%string, (LANGUAGE_JAPANESE, "Japanese"%string));
   ("6A"%string, (LANGUAGE_INDONESIAN, "Indonesian"%string));
   ("6B"%string, (LANGUAGE_HINDI, "Hindi"%string));
   ("6C"%string, (LANGUAGE_HEBREW, "Hebrew"%string));
   ("6D"%string, (LANGUAGE_HAUSA, "Hausa"%string));
   ("6E"%string, (LANGUAGE_GURANI, "Gurani"%string));
   ("6F"%string, (LANGUAGE_GUJURATI, "Gujarati"%string));
   ("70"%string, (LANGUAGE_GREEK, "Greek"%string));
   ("71"%string, (LANGUAGE_GEORGIAN, "Georgian"%string));
   ("72"%string, (LANGUAGE_FULANI, "Fulani"%string));
   ("73"%string, (LANGUAGE_DARI, "Dari"%string));
   ("74"%string, (LANGUAGE_CHURASH, "Churash"%string));
   ("75"%string, (LANGUAGE_CHINESE, "Chinese"%string));
   ("76"%string, (LANGUAGE_BURMESE, "Burmese"%string));
   ("77"%string, (LANGUAGE_BULGARIAN, "Bulgarian"%string));
   ("78"%string, (LANGUAGE_BENGALI, "Bengali"%string));
   ("79"%string, (LANGUAGE_BIELORUSSIAN, "Bielorussian"%string));
   ("7A"%string, (LANGUAGE_BAMBORA, "Bambora"%string));
   ("7B"%string, (LANGUAGE_AZERBAIJANI, "Azerbaijani"%string));
   ("7C"%string, (LANGUAGE_ASSAMESE, "Assamese"%string));
   ("7D"%string, (LANGUAGE_ARMENIAN, "Armenian"%string));
   ("7E"%string, (LANGUAGE_ARABIC, "Arabic"%string));
   ("7F"%string, (LANGUAGE_AMHARIC, "Amharic"%string))].

(** _timecode_status_map, stl_binary_tables.cc 320-321. *)
Definition timecode_status_map : stl_table string timecode_status :=
  [("0"%string, (TIMECODE_STATUS_NOT_INTENDED_FOR_USE, "Not intended for use"%string));
   ("1"%string, (TIMECODE_STATUS_INTENDED_FOR_USE, "Intended for use"%string))].

(** _cumulative_status_map, stl_binary_tables.cc 323-326. *)
Definition cumulative_status_map : stl_table Z cumulative_status :=
  [(0, (CUMULATIVE_STATUS_NOT_CUMULATIVE, "Not part of a cumulative set"%string));
   (1, (CUMULATIVE_STATUS_FIRST, "First subtitle of a cumulative set"%string));
   (2, (CUMULATIVE_STATUS_INTERMEDIATE, "Intermediate subtitle of a cumulative set"%string));
   (3, (CUMULATIVE_STATUS_LAST, "Last subtitle of a cumulative set"%string))].

(** _justification_map, stl_binary_tables.cc 328-331. *)
Definition justification_map : stl_table Z justification :=
  [(0, (JUSTIFICATION_NONE, "No justification"%string));
   (1, (JUSTIFICATION_LEFT, "Left justification"%string));
   (2, (JUSTIFICATION_CENTRE, "Centre justification"%string));
   (3, (JUSTIFICATION_RIGHT, "Right justification"%string))].

(** _comment_map, stl_binary_tables.cc 333-334. *)
Definition comment_map : stl_table Z stl_comment :=
  [(0, (COMMENT_NO, "Not a comment"%string));
   (1, (COMMENT_YES, "Is a comment"%string))].

(** file_to_enum, stl_binary_tables.cc 36-46, for string keys; [name] is used in the message. *)
Fixpoint file_to_enum {E : Type} (k : str) (m : stl_table string E) : option E :=
  match m with
  | [] => None
  | (f, (e, _)) :: t => if str_eqb (lit f) k then Some e else file_to_enum k t
  end.
(** file_to_enum with its exception, stl_binary_tables.cc 36-46. *)
Definition file_to_enum_or_throw {E : Type} (k : str) (m : stl_table string E) (name : string) : res E :=
  match file_to_enum k m with
  | Some e => Ok e
  | None => Throw (EStl (compose (lit "Unknown %1 %2 in binary STL file") [lit name; k]))
  end.
(** file_to_enum for int keys, stl_binary_tables.cc 36-46. *)
Fixpoint file_to_enum_int {E : Type} (k : Z) (m : stl_table Z E) : option E :=
  match m with
  | [] => None
  | (f, (e, _)) :: t => if f =? k then Some e else file_to_enum_int k t
  end.
(** The same with its exception, stl_binary_tables.cc 36-46. *)
Definition file_to_enum_int_or_throw {E : Type} (k : Z) (m : stl_table Z E) (name : string) : res E :=
  match file_to_enum_int k m with
  | Some e => Ok e
  | None => Throw (EStl (compose (lit "Unknown %1 %2 in binary STL file") [lit name; print_int k]))
  end.

(** enum_to_file, stl_binary_tables.cc 48-60. *)
Fixpoint enum_to_file {E F : Type} (eqb : E -> E -> bool) (k : E) (m : stl_table F E) : res F :=
  match m with
  | [] => Throw EProgramming
  | (f, (e, _)) :: t => if eqb e k then Ok f else enum_to_file eqb k t
  end.

(** enum_to_description, stl_binary_tables.cc 62-73. *)
Fixpoint enum_to_description {E F : Type} (eqb : E -> E -> bool) (v : E) (m : stl_table F E) : str :=
  match m with
  | [] => []
  | (_, (e, d)) :: t => if eqb e v then lit d else enum_to_description eqb v t
  end.

(** description_to_enum, stl_binary_tables.cc 75-86. *)
Fixpoint description_to_enum {E F : Type} (d : str) (m : stl_table F E) : option E :=
  match m with
  | [] => None
  | (_, (e, d')) :: t => if str_eqb (lit d') d then Some e else description_to_enum d t
  end.

(** STLBinaryTables::display_standard_file_to_enum, stl_binary_tables.cc 88-92. *)
Definition display_standard_file_to_enum (s : str) : res display_standard :=
  file_to_enum_or_throw s display_standard_map "display standard code".
(** STLBinaryTables::language_group_file_to_enum, stl_binary_tables.cc 94-98. *)
Definition language_group_file_to_enum (s : str) : res language_group :=
  file_to_enum_or_throw s language_group_map "language group code".
(** STLBinaryTables::language_file_to_enum, stl_binary_tables.cc 100-104. *)
Definition language_file_to_enum (s : str) : res language :=
  file_to_enum_or_throw s language_map "language code".
(** STLBinaryTables::timecode_status_file_to_enum, stl_binary_tables.cc 106-110. *)
Definition timecode_status_file_to_enum (s : str) : res timecode_status :=
  file_to_enum_or_throw s timecode_status_map "timecode status code".
(** STLBinaryTables::cumulative_status_file_to_enum, stl_binary_tables.cc 112-116. *)
Definition cumulative_status_file_to_enum (s : Z) : res cumulative_status :=
  file_to_enum_int_or_throw s cumulative_status_map "cumulative status code".
(** STLBinaryTables::justification_file_to_enum, stl_binary_tables.cc 118-122. *)
Definition justification_file_to_enum (s : Z) : res justification :=
  file_to_enum_int_or_throw s justification_map "justification code".
(** STLBinaryTables::comment_file_to_enum, stl_binary_tables.cc 124-128. *)
Definition comment_file_to_enum (s : Z) : res stl_comment :=
  file_to_enum_int_or_throw s comment_map "comment code".
(** STLBinaryTables::language_enum_to_file, stl_binary_tables.cc 130-134. *)
Definition language_enum_to_file (e : language) : res string := enum_to_file language_eqb e language_map.
(** STLBinaryTables::cumulative_status_enum_to_file, stl_binary_tables.cc 136-140. *)
Definition cumulative_status_enum_to_file (e : cumulative_status) : res Z :=
  enum_to_file cumulative_status_eqb e cumulative_status_map.
(** STLBinaryTables::justification_enum_to_file, stl_binary_tables.cc 142-146. *)
Definition justification_enum_to_file (e : justification) : res Z :=
  enum_to_file justification_eqb e justification_map.
(** STLBinaryTables::comment_enum_to_file, stl_binary_tables.cc 148-152. *)
Definition comment_enum_to_file (e : stl_comment) : res Z := enum_to_file stl_comment_eqb e comment_map.
(** STLBinaryTables::display_standard_enum_to_description, stl_binary_tables.cc 154-158. *)
Definition display_standard_enum_to_description (e : display_standard) : str :=
  enum_to_description display_standard_eqb e display_standard_map.
(** STLBinaryTables::language_group_enum_to_description, stl_binary_tables.cc 160-164. *)
Definition language_group_enum_to_description (e : language_group) : str :=
  enum_to_description language_group_eqb e language_group_map.
(** STLBinaryTables::language_enum_to_description, stl_binary_tables.cc 166-170. *)
Definition language_enum_to_description (e : language) : str := enum_to_description language_eqb e language_map.
(** STLBinaryTables::timecode_status_enum_to_description, stl_binary_tables.cc 172-176. *)
Definition timecode_status_enum_to_description (e : timecode_status) : str :=
  enum_to_description timecode_status_eqb e timecode_status_map.
(** STLBinaryTables::cumulative_status_enum_to_description, stl_binary_tables.cc 178-182. *)
Definition cumulative_status_enum_to_description (e : cumulative_status) : str :=
  enum_to_description cumulative_status_eqb e cumulative_status_map.
(** STLBinaryTables::justification_enum_to_description, stl_binary_tables.cc 184-188. *)
Definition justification_enum_to_description (e : justification) : str :=
  enum_to_description justification_eqb e justification_map.
(** STLBinaryTables::comment_enum_to_description, stl_binary_tables.cc 190-194. *)
Definition comment_enum_to_description (e : stl_comment) : str :=
  enum_to_description stl_comment_eqb e comment_map.
(** STLBinaryTables::language_description_to_enum, stl_binary_tables.cc 196-200. *)
Definition language_description_to_enum (d : str) : option language := description_to_enum d language_map.
