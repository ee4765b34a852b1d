(** /repo/src/stl_binary_reader.{h,cc}. *)
From Coq Require Import ZArith List Bool Ascii String.
From Verif.Model Require Import Base Strings Float TimeModel Types Lines Compose Iso6937Tables Utf Iso6937 StlTables StlUtil.
Import ListNotations.
Local Open Scope Z_scope.

(** A computation that also works on the global ISO 6937 tables. *)
Definition st (A : Type) : Type := tables -> tables * res A.
(** A computation that leaves the tables alone. *)
Definition st_ret {A : Type} (r : res A) : st A := fun t => (t, r).
(** Sequencing: the tables that the first leaves are what the second starts with. *)
Definition st_bind {A B : Type} (e : st A) (k : A -> st B) : st B :=
  fun t => let '(t', r) := e t in
           match r with
           | Ok a => k a t'
           | Throw x => (t', Throw x)
           | Undef u => (t', Undef u)
           end.
Notation "'let$' x ':=' e 'in' k" := (st_bind e (fun x => k)) (at level 200, x name, right associativity).

(** InputReader::get_string, stl_binary_reader.cc 60-68. *)
Definition get_string (buffer : str) (offset length : nat) : str := firstn length (skipn offset buffer).
(** InputReader::get_int, stl_binary_reader.cc 70-78 (only used with length 1). *)
Definition get_int (buffer : str) (offset : nat) : Z := code (nth offset buffer zero).

(** InputReader::get_timecode, stl_binary_reader.cc 80-83. *)
Definition get_timecode (buffer : str) (offset : nat) (frame_rate : Z) : res time :=
  from_hmsf (get_int buffer offset) (get_int buffer (offset + 1)) (get_int buffer (offset + 2))
            (get_int buffer (offset + 3)) (Some (mkR frame_rate 1)).

(** StreamInputReader::read and FILEInputReader::read, stl_binary_reader.cc 99-105 and 120-126: the block and the
    rest of the input.  I/O errors other than end of file are not modelled. *)
Definition read_block (size : nat) (what : string) (input : str) : res (str * str) :=
  if Nat.ltb (List.length input) size
  then Throw (EStl (compose (lit "Could not read %1 block from binary STL file") [lit what]))
  else Ok (firstn size input, skipn size input).

(** atoi (reader->get_string (offset, length).c_str ()) *)
Definition get_atoi (buffer : str) (offset length : nat) : res Z := atoi (c_string (get_string buffer offset length)).

(** The public data members of STLBinaryReader, stl_binary_reader.h 43-71. *)
Record gsi : Type := mkGsi {
  code_page_number : Z;
  frame_rate : Z;
  g_display_standard : display_standard;
  g_language_group : language_group;
  g_language : language;
  original_programme_title : str;
  original_episode_title : str;
  translated_programme_title : str;
  translated_episode_title : str;
  translator_name : str;
  translator_contact_details : str;
  subtitle_list_reference_code : str;
  creation_date : str;
  revision_date : str;
  revision_number : str;
  tti_blocks : Z;
  number_of_subtitles : Z;
  subtitle_groups : Z;
  maximum_characters : Z;
  maximum_rows : Z;
  g_timecode_status : timecode_status;
  start_of_programme : str;
  first_in_cue : str;
  disks : Z;
  disk_sequence_number : Z;
  country_of_origin : str;
  publisher : str;
  editor_name : str;
  editor_contact_details : str }.

(** stl_binary_reader.cc 148-188. *)
Definition read_gsi (b : str) : res gsi :=
  let* cpn := get_atoi b 0 3 in
  let* fr := stl_dfc_to_frame_rate (get_string b 3 8) in
  let* fr := to_int (trunc_Z fr) in
  let* ds := display_standard_file_to_enum (get_string b 11 1) in
  let* lg := language_group_file_to_enum (get_string b 12 2) in
  let* la := language_file_to_enum (get_string b 14 2) in
  let* ttib := get_atoi b 238 5 in
  let* nos := get_atoi b 243 5 in
  let* sg := get_atoi b 248 3 in
  let* mc := get_atoi b 251 2 in
  let* mr := get_atoi b 253 2 in
  let* ts := timecode_status_file_to_enum (get_string b 255 1) in
  let* di := get_atoi b 272 1 in
  let* dsn := get_atoi b 273 1 in
  Ok (mkGsi cpn fr ds lg la
       (get_string b 16 32) (get_string b 48 32) (get_string b 80 32) (get_string b 112 32)
       (get_string b 144 32) (get_string b 176 32)
       (get_string b 208 16) (get_string b 224 6) (get_string b 230 6) (get_string b 236 2)
       ttib nos sg mc (if mr =? 99 then 12 else mr)
       ts (get_string b 256 8) (get_string b 264 8) di dsn
       (get_string b 274 3) (get_string b 277 32) (get_string b 309 32) (get_string b 341 32)).

(** sub.text = utf_to_utf<char> (iso6937_to_utf16 (text.c_str())); _subs.push_back (sub) (253-254 and 313-314) *)
Definition push_text (sub : raw) (text : str) (subs : list raw) : st (raw * list raw) :=
  let$ w := (fun t => iso6937_to_utf16 t (c_string text)) in
  let sub := set_text (wide_to_utf8 w) sub in
  st_ret (Ok (sub, subs ++ [sub])).

(** Colour (r, g, b) of three ints, stl_binary_reader.cc 259-290. *)
Definition rgb (r g b : Z) : colour := mkC (f_of_int r) (f_of_int g) (f_of_int b).

(** The colours of the switch, stl_binary_reader.cc 259-290. *)
Definition stl_colour (c : Z) : option colour :=
  if c =? 0 then Some (rgb 0 0 0)
  else if c =? 1 then Some (rgb 1 0 0)
  else if c =? 2 then Some (rgb 0 1 0)
  else if c =? 3 then Some (rgb 1 1 0)
  else if c =? 4 then Some (rgb 0 0 1)
  else if c =? 5 then Some (rgb 1 0 1)
  else if c =? 6 then Some (rgb 0 1 1)
  else if c =? 7 then Some (rgb 1 1 1)
  else None.

(** The loop over the characters of a line and the final push, stl_binary_reader.cc 240-315.
    Returns italic, underline and _subs. *)
Fixpoint stl_chars (line : str) (sub : raw) (italic underline : bool) (text : str) (subs : list raw)
  : st (bool * bool * list raw) :=
  let finish :=
    match text with
    | [] => st_ret (Ok (italic, underline, subs))
    | _ => let$ x := push_text sub text subs in st_ret (Ok (italic, underline, snd x))
    end in
  match line with
  | [] => finish
  | ch :: t =>
      let c := code ch in
      if c =? 143 then finish
      else if (c <=? 7) || ((128 <=? c) && (c <=? 131)) then
        let$ x := push_text sub text subs in
        let sub := fst x in
        let subs := snd x in
        let sub := match stl_colour c with Some col => set_colour col sub | None => sub end in
        let italic := if c =? 128 then true else if c =? 129 then false else italic in
        let underline := if c =? 130 then true else if c =? 131 then false else underline in
        stl_chars t (set_underline underline (set_italic italic sub)) italic underline [] subs
      else stl_chars t (set_underline underline (set_italic italic sub)) italic underline (text ++ [ch]) subs
  end.

(** The horizontal reference from the justification code, stl_binary_reader.cc 226-238. *)
Definition stl_href (h : Z) (sub : raw) : raw :=
  if (h =? 0) || (h =? 2) then set_href HORIZONTAL_CENTRE_OF_SCREEN sub
  else if h =? 1 then set_href LEFT_OF_SCREEN sub
  else if h =? 3 then set_href RIGHT_OF_SCREEN sub
  else sub.

(** The RawSubtitle made for line j of a TTI block, stl_binary_reader.cc 212-238. *)
Definition stl_new_sub (b : str) (g : gsi) (j : Z) (italic underline : bool) : res raw :=
  let* from := get_timecode b 5 (frame_rate g) in
  let* to := get_timecode b 9 (frame_rate g) in
  let sub := set_to to (set_from from raw_default) in
  let sub := set_line (Some (get_int b 13 + j)) sub in
  let sub := set_lines (Some (maximum_rows g)) sub in
  let sub := set_vref (Some TOP_OF_SCREEN) sub in
  let sub := set_underline underline (set_italic italic sub) in
  Ok (stl_href (get_int b 14) sub).

(** The loop over the lines of a TTI block, stl_binary_reader.cc 211-318: highest_line and _subs. *)
Fixpoint stl_lines (b : str) (g : gsi) (lines : list str) (j : Z) (italic underline : bool)
         (highest : Z) (subs : list raw) : st (Z * list raw) :=
  match lines with
  | [] => st_ret (Ok (highest, subs))
  | l :: t =>
      let$ sub := st_ret (stl_new_sub b g j italic underline) in
      let$ x := stl_chars l sub italic underline [] subs in
      stl_lines b g t (j + 1) (fst (fst x)) (snd (fst x)) (Z.max highest (get_int b 13 + j)) (snd x)
  end.

(** The loop over the TTI blocks, stl_binary_reader.cc 190-319. *)
Fixpoint stl_blocks (n : nat) (g : gsi) (input : str) (highest : Z) (subs : list raw) : st (Z * list raw) :=
  match n with
  | O => st_ret (Ok (highest, subs))
  | S k =>
      let$ x := st_ret (read_block 128 "TTI" input) in
      let b := fst x in
      let rest := snd x in
      let$ c := st_ret (comment_file_to_enum (get_int b 15)) in
      match c with
      | COMMENT_YES => stl_blocks k g rest highest subs
      | COMMENT_NO =>
          let lines := split (is_any_of [chr 138]) (get_string b 16 112) in
          let$ y := stl_lines b g lines 0 false false highest subs in
          stl_blocks k g rest (fst y) (snd y)
      end
  end.

(** Moving everything up, stl_binary_reader.cc 321-327. *)
Definition fix_line (correction : Z) (sub : raw) : raw :=
  match v_line (r_vpos sub) with
  | Some n => set_line (Some (n - correction)) sub
  | None => sub
  end.
(** Whether to move everything up, stl_binary_reader.cc 321-327. *)
Definition fix_lines (highest rows : Z) (subs : list raw) : list raw :=
  if rows <? highest then map (fix_line (highest - rows)) subs else subs.

(** STLBinaryReader::read, stl_binary_reader.cc 144-328: the data members and _subs. *)
Definition stl_binary_read (input : str) : st (gsi * list raw) :=
  let$ x := st_ret (read_block 1024 "GSI" input) in
  let$ g := st_ret (read_gsi (fst x)) in
  let$ y := stl_blocks (Z.to_nat (tti_blocks g)) g (snd x) 0 [] in
  st_ret (Ok (g, fix_lines (fst y) (maximum_rows g) (snd y))).

(** STLBinaryReader::metadata, stl_binary_reader.cc 330-366, in the order of std::map. *)
Definition stl_metadata (g : gsi) : list (str * str) :=
  [ (lit "Code page number", print_int (code_page_number g));
    (lit "Country of origin", country_of_origin g);
    (lit "Creation date", creation_date g);
    (lit "Disk sequence number", print_int (disk_sequence_number g));
    (lit "Disks", print_int (disks g));
    (lit "Display standard", display_standard_enum_to_description (g_display_standard g));
    (lit "Editor contact details", editor_contact_details g);
    (lit "Editor name", editor_name g);
    (lit "First in cue", first_in_cue g);
    (lit "Frame rate", print_int (frame_rate g));
    (lit "Language", language_enum_to_description (g_language g));
    (lit "Language group", language_group_enum_to_description (g_language_group g));
    (lit "Maximum characters", print_int (maximum_characters g));
    (lit "Maximum rows", print_int (maximum_rows g));
    (lit "Number of subtitles", print_int (number_of_subtitles g));
    (lit "Original episode title", original_episode_title g);
    (lit "Original programme title", original_programme_title g);
    (lit "Publisher", publisher g);
    (lit "Revision date", revision_date g);
    (lit "Revision number", revision_number g);
    (lit "Start of programme", start_of_programme g);
    (lit "Subtitle groups", print_int (subtitle_groups g));
    (lit "Subtitle list reference code", subtitle_list_reference_code g);
    (lit "TTI blocks", print_int (tti_blocks g));
    (lit "Timecode status", timecode_status_enum_to_description (g_timecode_status g));
    (lit "Translated episode title", translated_episode_title g);
    (lit "Translated programme title", translated_programme_title g);
    (lit "Translator contact details", translator_contact_details g);
    (lit "Translator name", translator_name g) ].
