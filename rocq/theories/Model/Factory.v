(** /repo/src/reader_factory.cc. *)
From Coq Require Import ZArith List Bool Ascii String.
From Verif.Model Require Import Base Strings Types Lines Utf Iso6937 StlTables StlBinReader StlText Subrip.
Import ListNotations.
Local Open Scope Z_scope.

(** What a Reader offers (reader.h 35-54): metadata () and subtitles (). *)
Record reader : Type := mkReader { rd_metadata : list (str * str); rd_subtitles : list raw }.

(** Which reader has been made. *)
Inductive reader_kind : Type := StlBinary | StlText | SubRip.

(** boost::filesystem::path::extension of the file name (the part after the last slash): from the last dot, or empty
    when there is no dot or the name is "." or "..".  Library code, modelled from its documentation. *)
Definition last_component (p : str) : str :=
  fold_left (fun acc c => if Ascii.eqb c "/"%char then [] else acc ++ [c]) p [].
(** From the last dot of a file name on (reader_factory.cc 37). *)
Definition last_extension (s : str) : str :=
  fold_left (fun acc c => if Ascii.eqb c "."%char then [c] else match acc with [] => [] | _ => acc ++ [c] end) s [].
(** path::extension, reader_factory.cc 37. *)
Definition extension (p : str) : str :=
  let n := last_component p in
  if str_eqb n (lit ".") || str_eqb n (lit "..") then [] else last_extension n.

(** The choice of reader from the extension and the first bytes of the file, reader_factory.cc 37-61. *)
Definition factory_kind (ext : str) (content : str) : option reader_kind :=
  let e := to_lower ext in
  if str_eqb e (lit ".stl") then
    if Nat.leb 11 (List.length content) && str_eqb (firstn 3 (skipn 3 content)) (lit "STL")
    then Some StlBinary else Some StlText
  else if str_eqb e (lit ".srt") then Some SubRip
  else None.

(** sub::reader_factory, reader_factory.cc 34-62, given the path and the content of the file if it can be opened; None
    is the null pointer.  A .stl file shorter than 11 bytes (or missing) leaves the stream in a failed state which
    seekg does not clear. *)
Definition reader_factory (path : str) (content : option str) : st (option reader) :=
  let bytes := match content with Some c => c | None => [] end in
  match factory_kind (extension path) bytes with
  | Some StlBinary =>
      let$ x := stl_binary_read bytes in
      st_ret (Ok (Some (mkReader (stl_metadata (fst x)) (snd x))))
  | Some StlText =>
      st_ret (let* subs := stl_text_read (Nat.leb 11 (List.length bytes)) bytes in Ok (Some (mkReader [] subs)))
  | Some SubRip =>
      st_ret (let* _ := sub_assert (is_some content) in
              let* subs := subrip_reader_file bytes in
              Ok (Some (mkReader [] subs)))
  | None => st_ret (Ok None)
  end.

(** What reader_factory, reader_factory.cc 34-62, writes to standard output: only STLTextReader writes anything. *)
Definition factory_output (path : str) (content : option str) : str :=
  let bytes := match content with Some c => c | None => [] end in
  match factory_kind (extension path) bytes with
  | Some StlText => stl_text_output (Nat.leb 11 (List.length bytes)) bytes
  | _ => []
  end.
