(** The code tables of EBU Tech 3264 (GSI and TTI blocks), by position. *)
From Coq Require Import ZArith List Bool Ascii String.
From Verif.Model Require Import Base StlTables.
Import ListNotations.
Local Open Scope Z_scope.

(** Two upper-case hexadecimal digits. *)
Definition hex_char (d : Z) : ascii := ascii_of_nat (Z.to_nat (if Z.leb d 9 then 48 + d else 55 + d)).
Definition hex2 (n : Z) : str := [hex_char (n / 16); hex_char (n mod 16)].

(** Languages with codes 00 onwards, and languages with codes 45 onwards. *)
Definition latin_languages : list (language * string) :=
  [(LANGUAGE_UNKNOWN, "Unknown"); (LANGUAGE_ALBANIAN, "Albanian"); (LANGUAGE_BRETON, "Breton"); (LANGUAGE_CATALAN, "Catalan");
   (LANGUAGE_CROATIAN, "Croatian"); (LANGUAGE_WELSH, "Welsh"); (LANGUAGE_CZECH, "Czech"); (LANGUAGE_DANISH, "Danish");
   (LANGUAGE_GERMAN, "German"); (LANGUAGE_ENGLISH, "English"); (LANGUAGE_SPANISH, "Spanish"); (LANGUAGE_ESPERANTO, "Esperanto");
   (LANGUAGE_ESTONIAN, "Estonian"); (LANGUAGE_BASQUE, "Basque"); (LANGUAGE_FAROESE, "Faroese"); (LANGUAGE_FRENCH, "French");
   (LANGUAGE_FRISIAN, "Frisian"); (LANGUAGE_IRISH, "Irish"); (LANGUAGE_GAELIC, "Gaelic"); (LANGUAGE_GALACIAN, "Galacian");
   (LANGUAGE_ICELANDIC, "Icelandic"); (LANGUAGE_ITALIAN, "Italian"); (LANGUAGE_LAPPISH, "Lappish"); (LANGUAGE_LATIN, "Latin");
   (LANGUAGE_LATVIAN, "Latvian"); (LANGUAGE_LUXEMBORGIAN, "Luxemborgian"); (LANGUAGE_LITHUANIAN, "Lithuanian");
   (LANGUAGE_HUNGARIAN, "Hungarian"); (LANGUAGE_MALTESE, "Maltese"); (LANGUAGE_DUTCH, "Dutch"); (LANGUAGE_NORWEGIAN, "Norwegian");
   (LANGUAGE_OCCITAN, "Occitan"); (LANGUAGE_POLISH, "Polish"); (LANGUAGE_PORTUGESE, "Portugese"); (LANGUAGE_ROMANIAN, "Romanian");
   (LANGUAGE_ROMANSH, "Romansh"); (LANGUAGE_SERBIAN, "Serbian"); (LANGUAGE_SLOVAK, "Slovak"); (LANGUAGE_SLOVENIAN, "Slovenian");
   (LANGUAGE_FINNISH, "Finnish"); (LANGUAGE_SWEDISH, "Swedish"); (LANGUAGE_TURKISH, "Turkish"); (LANGUAGE_FLEMISH, "Flemish");
   (LANGUAGE_WALLON, "Wallon")]%string.
Definition other_languages : list (language * string) :=
  [(LANGUAGE_ZULU, "Zulu"); (LANGUAGE_VIETNAMESE, "Vietnamese"); (LANGUAGE_UZBEK, "Uzbek"); (LANGUAGE_URDU, "Urdu");
   (LANGUAGE_UKRANIAN, "Ukranian"); (LANGUAGE_THAI, "Thai"); (LANGUAGE_TELUGU, "Telugu"); (LANGUAGE_TATAR, "Tatar");
   (LANGUAGE_TAMIL, "Tamil"); (LANGUAGE_TADZHIK, "Tadzhik"); (LANGUAGE_SWAHILI, "Swahili");
   (LANGUAGE_SRANAN_TONGO, "Sranan Tongo"); (LANGUAGE_SOMALI, "Somali"); (LANGUAGE_SINHALESE, "Sinhalese");
   (LANGUAGE_SHONA, "Shona"); (LANGUAGE_SERBO_CROAT, "Serbo Croat"); (LANGUAGE_RUTHENIAN, "Ruthenian");
   (LANGUAGE_RUSSIAN, "Russian"); (LANGUAGE_QUECHUA, "Quechua"); (LANGUAGE_PUSHTU, "Pushtu"); (LANGUAGE_PUNJABI, "Punjabi");
   (LANGUAGE_PERSIAN, "Persian"); (LANGUAGE_PAPAMIENTO, "Papamiento"); (LANGUAGE_ORIYA, "Oriya"); (LANGUAGE_NEPALI, "Nepali");
   (LANGUAGE_NDEBELE, "Ndebele"); (LANGUAGE_MARATHI, "Marathi"); (LANGUAGE_MOLDAVIAN, "Moldavian");
   (LANGUAGE_MALAYSIAN, "Malaysian"); (LANGUAGE_MALAGASAY, "Malagasay"); (LANGUAGE_MACEDONIAN, "Macedonian");
   (LANGUAGE_LAOTIAN, "Laotian"); (LANGUAGE_KOREAN, "Korean"); (LANGUAGE_KHMER, "Khmer"); (LANGUAGE_KAZAKH, "Kazakh");
   (LANGUAGE_KANNADA, "Kannada"); (LANGUAGE_JAPANESE, "Japanese"); (LANGUAGE_INDONESIAN, "Indonesian");
   (LANGUAGE_HINDI, "Hindi"); (LANGUAGE_HEBREW, "Hebrew"); (LANGUAGE_HAUSA, "Hausa"); (LANGUAGE_GURANI, "Gurani");
   (LANGUAGE_GUJURATI, "Gujarati"); (LANGUAGE_GREEK, "Greek"); (LANGUAGE_GEORGIAN, "Georgian"); (LANGUAGE_FULANI, "Fulani");
   (LANGUAGE_DARI, "Dari"); (LANGUAGE_CHURASH, "Churash"); (LANGUAGE_CHINESE, "Chinese"); (LANGUAGE_BURMESE, "Burmese");
   (LANGUAGE_BULGARIAN, "Bulgarian"); (LANGUAGE_BENGALI, "Bengali"); (LANGUAGE_BIELORUSSIAN, "Bielorussian");
   (LANGUAGE_BAMBORA, "Bambora"); (LANGUAGE_AZERBAIJANI, "Azerbaijani"); (LANGUAGE_ASSAMESE, "Assamese");
   (LANGUAGE_ARMENIAN, "Armenian"); (LANGUAGE_ARABIC, "Arabic"); (LANGUAGE_AMHARIC, "Amharic")]%string.

Fixpoint from_code {A : Type} (first : Z) (l : list A) : list (Z * A) :=
  match l with [] => [] | a :: t => (first, a) :: from_code (first + 1) t end.

(** (file code, meaning, description) *)
Definition ebu_languages : list (str * language * str) :=
  map (fun e => (hex2 (fst e), fst (snd e), list_ascii_of_string (snd (snd e))))
      (from_code 0x00 latin_languages ++ from_code 0x45 other_languages).
Definition ebu_display_standards : list (str * display_standard * str) :=
  [(lit " ", DISPLAY_STANDARD_UNDEFINED, lit "Undefined"); (lit "0", DISPLAY_STANDARD_OPEN_SUBTITLING, lit "Open subtitling");
   (lit "1", DISPLAY_STANDARD_LEVEL_1_TELETEXT, lit "Level 1 teletext");
   (lit "2", DISPLAY_STANDARD_LEVEL_2_TELETEXT, lit "Level 2 teletext")].
Definition ebu_timecode_statuses : list (str * timecode_status * str) :=
  [(lit "0", TIMECODE_STATUS_NOT_INTENDED_FOR_USE, lit "Not intended for use");
   (lit "1", TIMECODE_STATUS_INTENDED_FOR_USE, lit "Intended for use")].
(** The character code tables; U8 is an extension for UTF-8. *)
Definition ebu_language_groups : list (str * language_group * str) :=
  [(lit "00", LANGUAGE_GROUP_LATIN, lit "Latin"); (lit "01", LANGUAGE_GROUP_LATIN_CYRILLIC, lit "Latin/Cyrillic");
   (lit "02", LANGUAGE_GROUP_LATIN_ARABIC, lit "Latin/Arabic"); (lit "03", LANGUAGE_GROUP_LATIN_GREEK, lit "Latin/Greek");
   (lit "04", LANGUAGE_GROUP_LATIN_HEBREW, lit "Latin/Hebrew")].
Definition utf8_language_group : str * language_group * str := (lit "U8", LANGUAGE_GROUP_UTF8, lit "UTF-8").
Definition ebu_cumulative_statuses : list (Z * cumulative_status * str) :=
  [(0, CUMULATIVE_STATUS_NOT_CUMULATIVE, lit "Not part of a cumulative set");
   (1, CUMULATIVE_STATUS_FIRST, lit "First subtitle of a cumulative set");
   (2, CUMULATIVE_STATUS_INTERMEDIATE, lit "Intermediate subtitle of a cumulative set");
   (3, CUMULATIVE_STATUS_LAST, lit "Last subtitle of a cumulative set")].
Definition ebu_justifications : list (Z * justification * str) :=
  [(0, JUSTIFICATION_NONE, lit "No justification"); (1, JUSTIFICATION_LEFT, lit "Left justification");
   (2, JUSTIFICATION_CENTRE, lit "Centre justification"); (3, JUSTIFICATION_RIGHT, lit "Right justification")].
Definition ebu_comments : list (Z * stl_comment * str) :=
  [(0, COMMENT_NO, lit "Not a comment"); (1, COMMENT_YES, lit "Is a comment")].

(** A table is one to one: every value of the type has exactly one row, and no two rows share a code or description. *)
Definition one_to_one {F E : Type} (t : list (F * E * str)) : Prop :=
  (forall e, exists c d, In (c, e, d) t) /\
  (forall c1 e1 d1 c2 e2 d2, In (c1, e1, d1) t -> In (c2, e2, d2) t ->
     c1 = c2 \/ e1 = e2 \/ d1 = d2 -> c1 = c2 /\ e1 = e2 /\ d1 = d2).

(** The reader's function accepts exactly the table's codes; others raise STLError with this message. *)
Definition reads_table {F E : Type} (read : F -> res E) (show : F -> str) (name : string) (t : list (F * E * str)) : Prop :=
  (forall c e, read c = Ok e <-> exists d, In (c, e, d) t) /\
  (forall c, (forall e d, ~ In (c, e, d) t) ->
     read c = Throw (EStl (lit "Unknown " ++ lit name ++ lit " " ++ show c ++ lit " in binary STL file"))) /\
  (forall c, (exists e, read c = Ok e) \/ (exists m, read c = Throw (EStl m))).
Definition writes_table {F E : Type} (write : E -> res F) (t : list (F * E * str)) : Prop :=
  forall c e, write e = Ok c <-> exists d, In (c, e, d) t.
Definition describes_table {F E : Type} (describe : E -> str) (t : list (F * E * str)) : Prop :=
  forall e d, describe e = d <-> exists c, In (c, e, d) t.
