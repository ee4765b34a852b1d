(** What the fields of the header of a binary STL file mean in EBU Tech 3264. *)
From Coq Require Import ZArith List Bool Ascii String.
From Verif.Model Require Import Base TimeModel Types StlBinReader StlBinWriter.
From Verif.Spec Require Import Outcome TextSpec Utf8Spec StlFileSpec StlWriteSpec.
Import ListNotations.
Local Open Scope Z_scope.
Local Notation length := List.length.

(** * Characters of the longest row *)

Definition characters_of (l : line) (n : Z) : Prop := exists ws, Forall2 (fun k w => utf8 (b_text k) w) (l_blocks l) ws /\ n = Z.of_nat (length (List.concat ws)).
Definition longest_row (ss : list subtitle) (n : Z) : Prop :=
  exists ns, Forall2 characters_of (List.concat (map s_lines ss)) ns /\ Forall (fun k => k <= n) ns /\ (In n ns \/ ns = [] /\ n = 0).
Definition only_ascii (ss : list subtitle) : Prop :=
  Forall (fun s => Forall (fun l => Forall (fun k => Forall (fun c => char_code c < 128) (b_text k)) (l_blocks l)) (s_lines s)) ss.

(** * The time of the first subtitle: hours, minutes, seconds and frames, two digits each *)

Definition tells (f : str) (seconds frames : Z) : Prop :=
  exists h m s k, f = h ++ m ++ s ++ k /\ number 2 (seconds / 3600) h /\ number 2 (seconds / 60 mod 60) m /\ number 2 (seconds mod 60) s /\ number 2 frames k.

(** * Code page 850 *)

(** The characters of the bytes from 80 to FF. *)
Definition code_page_850 : list Z :=
  [0xC7; 0xFC; 0xE9; 0xE2; 0xE4; 0xE0; 0xE5; 0xE7; 0xEA; 0xEB; 0xE8; 0xEF; 0xEE; 0xEC; 0xC4; 0xC5;
   0xC9; 0xE6; 0xC6; 0xF4; 0xF6; 0xF2; 0xFB; 0xF9; 0xFF; 0xD6; 0xDC; 0xF8; 0xA3; 0xD8; 0xD7; 0x192;
   0xE1; 0xED; 0xF3; 0xFA; 0xF1; 0xD1; 0xAA; 0xBA; 0xBF; 0xAE; 0xAC; 0xBD; 0xBC; 0xA1; 0xAB; 0xBB;
   0x2591; 0x2592; 0x2593; 0x2502; 0x2524; 0xC1; 0xC2; 0xC0; 0xA9; 0x2563; 0x2551; 0x2557; 0x255D; 0xA2; 0xA5; 0x2510;
   0x2514; 0x2534; 0x252C; 0x251C; 0x2500; 0x253C; 0xE3; 0xC3; 0x255A; 0x2554; 0x2569; 0x2566; 0x2560; 0x2550; 0x256C; 0xA4;
   0xF0; 0xD0; 0xCA; 0xCB; 0xC8; 0x131; 0xCD; 0xCE; 0xCF; 0x2518; 0x250C; 0x2588; 0x2584; 0xA6; 0xCC; 0x2580;
   0xD3; 0xDF; 0xD4; 0xD2; 0xF5; 0xD5; 0xB5; 0xFE; 0xDE; 0xDA; 0xDB; 0xD9; 0xFD; 0xDD; 0xAF; 0xB4;
   0xAD; 0xB1; 0x2017; 0xBE; 0xB6; 0xA7; 0xF7; 0xB8; 0xB0; 0xA8; 0xB7; 0xB9; 0xB3; 0xB2; 0x25A0; 0xA0].
Definition char_850 (c : ascii) (v : Z) : Prop :=
  char_code c < 128 /\ v = char_code c \/ 128 <= char_code c /\ nth_error code_page_850 (Z.to_nat (char_code c - 128)) = Some v.
(** The bytes [s] are the characters [w]. *)
Definition reads_850 (s : str) (w : list Z) : Prop := Forall2 char_850 s w.
Definition ascii_only (w : list Z) : Prop := Forall (fun v => v < 128) w.

(** The texts that the reader gives, and where they are. *)
Definition header_texts (g : gsi) : list (nat * str) :=
  [(16, original_programme_title g); (48, original_episode_title g); (80, translated_programme_title g); (112, translated_episode_title g);
   (144, translator_name g); (176, translator_contact_details g); (277, publisher g); (309, editor_name g); (341, editor_contact_details g)]%nat.
