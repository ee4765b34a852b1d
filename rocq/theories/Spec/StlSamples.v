(** Small binary STL files, used as examples beside the theorems. *)
From Coq Require Import ZArith List Bool Ascii String.
From Verif.Model Require Import Base Float TimeModel Types StlTables StlBinWriter.
From Verif.Spec Require Import TextSpec.
Import ListNotations.
Local Open Scope Z_scope.

Definition byte (z : Z) : ascii := ascii_of_nat (Z.to_nat z).
Definition spaces (n : nat) : str := repeat " "%char n.

(** A header: number of blocks in five digits, number of rows in two. *)
Definition sample_header (tti rows : string) : str :=
  lit "850STL25.0110009" ++ lit "Title" ++ spaces 27 ++ spaces 160 ++ spaces 16 ++ lit "260101260102" ++ lit "01" ++
  lit tti ++ lit "00001" ++ lit "001" ++ lit "40" ++ lit rows ++ lit "1" ++ lit "0000000000000000" ++ lit "11" ++ lit "GBR" ++
  spaces 96 ++ spaces 75 ++ spaces 576.

(** A block from 1s to 2s and 10 frames, with its row, comment flag and text. *)
Definition sample_block (row comment : Z) (text : list Z) : str :=
  map byte ([0; 1; 0; 255; 0; 0; 0; 1; 0; 0; 0; 2; 10; row; 2; comment] ++ text ++ repeat 0x8F (112 - List.length text)).

(** Two rows: "Hi" in italics, then "you" in red. *)
Definition sample_text : list Z := [0x80; 72; 105; 0x81; 0x8A; 1; 121; 111; 117].

(** * Samples for the writer *)

Definition sample_args : writer_args :=
  mkW (f_of_int 25) LANGUAGE_ENGLISH (lit "Title") [] [] [] [] [] (lit "260101") (lit "260102") 1 (lit "GBR") [] (lit "Editor") [].
Definition sample_line (row : Z) (italic : bool) (text : str) : line :=
  mkLine (mkH HORIZONTAL_CENTRE_OF_SCREEN (f_of_int 0)) (mkV None (Some row) (Some 23) (Some TOP_OF_SCREEN))
    [mkBlock text None (mkFS None None) None None Types.white false italic false].
Definition sample_time (s ms : Z) : time := mkT s ms (Some (mkR 1000 1)).
(** Two lines, one second and a half. *)
Definition sample_subtitle : subtitle :=
  mkSub (sample_time 1 0) (sample_time 2 500) None None [sample_line 18 true (lit "Hello"); sample_line 20 false (lit "you")].
(** A line of text at the bottom for one second. *)
Definition long_subtitle (text : str) : subtitle :=
  mkSub (sample_time 1 0) (sample_time 2 0) None None [sample_line 20 false text].
