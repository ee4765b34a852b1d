(** /repo/src/stl_binary_writer.cc. *)
From Coq Require Import ZArith List Bool Ascii String.
From Verif.Model Require Import Base Strings Float TimeModel Types RawConvert Iso6937Tables Utf Iso6937 StlTables StlUtil
  StlBinReader.
Import ListNotations.
Local Open Scope Z_scope.

(** ROWS, stl_binary_writer.cc 57. *)
Definition ROWS : Z := 23.

(** memcpy (p + at, s.c_str (), s.length ()) (put_string, stl_binary_writer.cc 59-63): s written over buf at position
    [at].  All the writes of this file stay inside the buffer (Proofs), so nothing is done past its end. *)
Fixpoint overwrite (buf : str) (at_ : nat) (s : str) : str :=
  match s, buf with
  | [], _ => buf
  | _, [] => []
  | c :: s', b :: buf' => match at_ with
                          | O => c :: overwrite buf' O s'
                          | S k => b :: overwrite buf' k s
                          end
  end.
(** put_string without a width, stl_binary_writer.cc 59-63. *)
Definition put_string (at_ : nat) (s : str) (buf : str) : str := overwrite buf at_ s.

(** put_string with a width, stl_binary_writer.cc 65-72. *)
Definition put_string_n (at_ : nat) (n : nat) (s : str) (buf : str) : res str :=
  let* _ := sub_assert (Nat.leb (List.length s) n) in
  Ok (put_string at_ (s ++ repeat " "%char (n - List.length s)) buf).

(** put_int_as_string, stl_binary_writer.cc 74-100.  %02d and %05d have no separators, and make_raw only replaces
    characters that are not digits. *)
Definition put_int_as_string (at_ : nat) (v : Z) (n : nat) (buf : str) : str :=
  put_string at_ (print_int_pad n v) buf.

(** put_int_as_int, stl_binary_writer.cc 102-108: little-endian, n bytes. *)
Definition put_int_as_int (at_ : nat) (v : Z) (n : nat) (buf : str) : str :=
  put_string at_ (map (fun i => chr (v / 2 ^ (8 * Z.of_nat i) mod 256)) (seq 0 n)) buf.

(** vertical_position, stl_binary_writer.cc 110-146. *)
Definition stl_vertical_position (l : line) : res Z :=
  let v := l_vpos l in
  let ref := match v_ref v with Some r => r | None => TOP_OF_SCREEN end in
  match v_prop v with
  | Some p =>
      match ref with
      | TOP_OF_SCREEN => to_int (rint_Z (fmul p (f_of_int ROWS)))
      | VERTICAL_CENTRE_OF_SCREEN =>
          to_int (rint_Z (dadd (d_of_f (fmul p (f_of_int ROWS))) (ddiv (d_of_int ROWS) (d_of_int 2))))
      | BOTTOM_OF_SCREEN => to_int (rint_Z (fsub (f_of_int ROWS) (fmul p (f_of_int ROWS))))
      | TOP_OF_SUBTITLE => Ok 0
      end
  | None =>
      match v_line v with
      | Some n =>
          let* lines := opt_get (v_lines v) in
          let prop := fdiv (f_of_int n) (f_of_int lines) in
          match ref with
          | TOP_OF_SCREEN => to_int (trunc_Z (fmul prop (f_of_int ROWS)))
          | VERTICAL_CENTRE_OF_SCREEN =>
              to_int (trunc_Z (dmul (dadd (d_of_f prop) (d_lit 1 2)) (d_of_int ROWS)))
          | BOTTOM_OF_SCREEN => to_int (trunc_Z (fmul (fsub (f_of_int 1) prop) (f_of_int ROWS)))
          | TOP_OF_SUBTITLE => Ok 0
          end
      | None => Ok 0
      end
  end.

(** The top of a subtitle, stl_binary_writer.cc 159-166. *)
Definition top_of (vps : list Z) : option Z :=
  fold_left (fun top vp => match top with
                           | None => Some vp
                           | Some t => if vp <? t then Some vp else top
                           end) vps None.

(** Control codes *)
Definition c_newline : ascii := chr 138.
(** Italic on, stl_binary_writer.cc 196. *)
Definition c_italic_on : ascii := chr 128.
(** Italic off, stl_binary_writer.cc 199 and 212. *)
Definition c_italic_off : ascii := chr 129.
(** Underline on, stl_binary_writer.cc 189. *)
Definition c_underline_on : ascii := chr 130.
(** Underline off, stl_binary_writer.cc 192 and 209. *)
Definition c_underline_off : ascii := chr 131.
(** Unused space, stl_binary_writer.cc 216 and 268. *)
Definition c_unused : ascii := chr 143.

(** The loop over the blocks of a line, stl_binary_writer.cc 187-204: text, italic and underline. *)
Fixpoint tti_blocks_text (tab : tables) (bs : list block) (italic underline : bool) : str * bool * bool :=
  match bs with
  | [] => ([], italic, underline)
  | k :: t =>
      let u := if b_underline k && negb underline then [c_underline_on]
               else if underline && negb (b_underline k) then [c_underline_off] else [] in
      let i := if b_italic k && negb italic then [c_italic_on]
               else if italic && negb (b_italic k) then [c_italic_off] else [] in
      let here := u ++ i ++ snd (utf16_to_iso6937 tab (utf8_to_wide (b_text k))) in
      let '(rest, italic', underline') := tti_blocks_text tab t (b_italic k) (b_underline k) in
      (here ++ rest, italic', underline')
  end.

(** The loop over the lines of a subtitle with their vertical positions, stl_binary_writer.cc 174-213. *)
Fixpoint tti_lines_text (tab : tables) (ls : list (line * Z)) (last_vp : option Z) (italic underline : bool) : str :=
  match ls with
  | [] => (if underline then [c_underline_off] else []) ++ (if italic then [c_italic_off] else [])
  | (j, vp) :: t =>
      let nl := match last_vp with
                | Some last => repeat c_newline (Z.to_nat (vp - last))
                | None => []
                end in
      let '(here, italic', underline') := tti_blocks_text tab (l_blocks j) italic underline in
      nl ++ here ++ tti_lines_text tab t (Some vp) italic' underline'
  end.

(** All the text of a subtitle, stl_binary_writer.cc 168-216. *)
Definition tti_text (tab : tables) (ls : list line) (vps : list Z) : str :=
  tti_lines_text tab (combine ls vps) None false false ++ [c_unused].

(** sub::Rational (frames_per_second * 1000, 1000), stl_binary_writer.cc 236. *)
Definition writer_rate (fps : flt) : res rational :=
  let* n := to_int (trunc_Z (fmul fps (f_of_int 1000))) in Ok (mkR n 1000).

(** put_int_as_int of a time code: 4 bytes, stl_binary_writer.cc 232-241. *)
Definition put_timecode (at_ : nat) (t : time) (fps : flt) (buf : str) : res str :=
  let* r := writer_rate fps in
  let* f := frames_at t r in
  Ok (put_int_as_int (at_ + 3) f 1
     (put_int_as_int (at_ + 2) (seconds t) 1
     (put_int_as_int (at_ + 1) (minutes t) 1
     (put_int_as_int at_ (hours t) 1 buf)))).

(** The justification code of a line, stl_binary_writer.cc 247-257. *)
Definition href_justification (h : href) : justification :=
  match h with
  | LEFT_OF_SCREEN => JUSTIFICATION_LEFT
  | HORIZONTAL_CENTRE_OF_SCREEN => JUSTIFICATION_CENTRE
  | RIGHT_OF_SCREEN => JUSTIFICATION_RIGHT
  end.

(** The first part of the blocks of a subtitle, stl_binary_writer.cc 223-260. *)
Definition tti_header (s : subtitle) (top : option Z) (fps : flt) (buf : str) : res str :=
  let buf := put_int_as_int 0 1 1 buf in
  let buf := put_int_as_int 1 0 2 buf in
  let* cs := cumulative_status_enum_to_file CUMULATIVE_STATUS_NOT_CUMULATIVE in
  let buf := put_int_as_int 4 cs 1 buf in
  let* buf := put_timecode 5 (s_from s) fps buf in
  let* buf := put_timecode 9 (s_to s) fps buf in
  let* top := opt_get top in
  let buf := put_int_as_int 13 top 1 buf in
  let* front := match s_lines s with l :: _ => Ok l | [] => Undef UbEmptyVector end in
  let* jc := justification_enum_to_file (href_justification (h_ref (l_hpos front))) in
  let buf := put_int_as_int 14 jc 1 buf in
  let* cf := comment_enum_to_file COMMENT_NO in
  Ok (put_int_as_int 15 cf 1 buf).

(** The loop that makes the blocks, stl_binary_writer.cc 262-278. *)
Fixpoint tti_chunks (fuel : nat) (text : str) (block_number : Z) (buf : str) : res (list str * str) :=
  match text with
  | [] => Ok ([], buf)
  | _ =>
      match fuel with
      | O => Undef UbFuel
      | S k =>
          let this := firstn 112 text in
          let rest := skipn 112 text in
          let buf := put_string 16 (this ++ repeat c_unused (112 - List.length this)) buf in
          let buf := put_int_as_int 3 (if is_nil rest then 255 else block_number) 1 buf in
          let* x := tti_chunks k rest (block_number + 1) buf in
          Ok (buf :: fst x, snd x)
      end
  end.

(** The blocks of one subtitle, stl_binary_writer.cc 159-278; [buf] is the buffer left by the one before. *)
Definition tti_subtitle (tab : tables) (s : subtitle) (fps : flt) (buf : str) : res (list str * str) :=
  let* vps := mapM stl_vertical_position (s_lines s) in
  let text := tti_text tab (s_lines s) vps in
  let* buf := tti_header s (top_of vps) fps buf in
  tti_chunks (List.length text) text 0 buf.

(** The loop over the subtitles, stl_binary_writer.cc 157-279. *)
Fixpoint tti_subtitles (tab : tables) (ss : list subtitle) (fps : flt) (buf : str) : res (list str) :=
  match ss with
  | [] => Ok []
  | s :: t =>
      let* x := tti_subtitle tab s fps buf in
      let* rest := tti_subtitles tab t fps (snd x) in
      Ok (fst x ++ rest)
  end.

(** make_tti_blocks, stl_binary_writer.cc 148-282.  The buffer starts uninitialised; its initial contents are a
    parameter of [tti_subtitles] and every byte is overwritten (Proofs). *)
Definition make_tti_blocks (tab : tables) (ss : list subtitle) (fps : flt) : res (list str) :=
  tti_subtitles tab ss fps (repeat zero 128).

(** The arguments of write_stl_binary other than the subtitles, stl_binary_writer.cc 290-304. *)
Record writer_args : Type := mkW {
  w_fps : flt;
  w_language : language;
  w_original_programme_title : str;
  w_original_episode_title : str;
  w_translated_programme_title : str;
  w_translated_episode_title : str;
  w_translator_name : str;
  w_translator_contact_details : str;
  w_creation_date : str;
  w_revision_date : str;
  w_revision_number : Z;
  w_country_of_origin : str;
  w_publisher : str;
  w_editor_name : str;
  w_editor_contact_details : str }.

(** The longest line in bytes, stl_binary_writer.cc 326-338.  int overflow is not modelled. *)
Definition line_bytes (l : line) : Z :=
  fold_left (fun t k => t + Z.of_nat (List.length (b_text k))) (l_blocks l) 0.
(** The greatest of these, stl_binary_writer.cc 328-338. *)
Definition longest_line (ss : list subtitle) : Z :=
  fold_left (fun m s => fold_left (fun m l => Z.max m (line_bytes l)) (s_lines s) m) ss 0.

(** The assertions at the top, stl_binary_writer.cc 308-320. *)
Definition writer_asserts (a : writer_args) : res unit :=
  let short s := sub_assert (Nat.leb (List.length s) 32) in
  let* _ := short (w_original_programme_title a) in
  let* _ := short (w_original_episode_title a) in
  let* _ := short (w_translated_programme_title a) in
  let* _ := short (w_translated_episode_title a) in
  let* _ := short (w_translator_name a) in
  let* _ := short (w_translator_contact_details a) in
  let* _ := sub_assert (Nat.eqb (List.length (w_creation_date a)) 6) in
  let* _ := sub_assert (Nat.eqb (List.length (w_revision_date a)) 6) in
  let* _ := sub_assert (w_revision_number a <=? 99) in
  let* _ := sub_assert (Nat.eqb (List.length (w_country_of_origin a)) 3) in
  let* _ := short (w_publisher a) in
  let* _ := short (w_editor_name a) in
  short (w_editor_contact_details a).

(** The GSI block, stl_binary_writer.cc 342-385. *)
Definition make_gsi (a : writer_args) (n_tti n_subtitles longest : Z) : res str :=
  let b := repeat zero 1024 in
  let b := put_string 0 (lit "850") b in
  let b := put_string 3 (stl_frame_rate_to_dfc (w_fps a)) b in
  let b := put_string 11 (lit "0") b in
  let b := put_string 12 (lit "00") b in
  let* lang := language_enum_to_file (w_language a) in
  let b := put_string 14 (lit lang) b in
  let* b := put_string_n 16 32 (w_original_programme_title a) b in
  let* b := put_string_n 48 32 (w_original_episode_title a) b in
  let* b := put_string_n 80 32 (w_translated_programme_title a) b in
  let* b := put_string_n 112 32 (w_translated_episode_title a) b in
  let* b := put_string_n 144 32 (w_translator_name a) b in
  let* b := put_string_n 176 32 (w_translator_contact_details a) b in
  let b := put_string 208 (lit "0000000000000000") b in
  let b := put_string 224 (w_creation_date a) b in
  let b := put_string 230 (w_revision_date a) b in
  let b := put_int_as_string 236 (w_revision_number a) 2 b in
  let b := put_int_as_string 238 n_tti 5 b in
  let b := put_int_as_string 243 n_subtitles 5 b in
  let b := put_string 248 (lit "001") b in
  let b := put_int_as_string 251 longest 2 b in
  let b := put_int_as_string 253 ROWS 2 b in
  let b := put_string 255 (lit "1") b in
  let b := put_string 256 (lit "00000000") b in
  let b := put_string 264 (lit "00000000") b in
  let b := put_string 272 (lit "1") b in
  let b := put_string 273 (lit "1") b in
  let* b := put_string_n 274 3 (w_country_of_origin a) b in
  let* b := put_string_n 277 32 (w_publisher a) b in
  let* b := put_string_n 309 32 (w_editor_name a) b in
  put_string_n 341 32 (w_editor_contact_details a) b.

(** Whether utf16_to_iso6937 is called at all, stl_binary_writer.cc 308-320, 157, 174, 187 and 203: the assertions hold and
    there is a block. *)
Definition writer_converts (ss : list subtitle) (a : writer_args) : bool :=
  match writer_asserts a with
  | Ok _ => existsb (fun s => existsb (fun l => negb (is_nil (l_blocks l))) (s_lines s)) ss
  | _ => false
  end.

(** write_stl_binary, stl_binary_writer.cc 287-393: the bytes of the file.  Errors in opening or writing the file,
    which the function ignores, are in Model/Saving.v. *)
Definition write_stl_binary (ss : list subtitle) (a : writer_args) : st str :=
  fun tab =>
    let tab := if writer_converts ss a then ensure tab else tab in
    (tab,
     let* _ := writer_asserts a in
     let* blocks := make_tti_blocks tab ss (w_fps a) in
     let* g := make_gsi a (Z.of_nat (List.length blocks)) (Z.of_nat (List.length ss)) (longest_line ss) in
     Ok (g ++ List.concat blocks)).
