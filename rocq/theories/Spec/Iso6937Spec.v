(** ISO 6937 (character code table 00 of EBU Tech 3264), written without reference to the library's tables.  The standard also
    assigns A0 (no-break space) and A6 (number sign), which the library does not have; they are left out of [right_half], so that
    the theorems say they are read as U+0000. *)
From Coq Require Import ZArith List Bool Ascii.
From Verif.Model Require Import Base Utf Iso6937.
From Verif.Spec Require Import Outcome TextSpec UnicodeSpec.
Import ListNotations.
Local Open Scope Z_scope.

(** Accent bytes and the combining marks they stand for.  C9 and CC are not assigned. *)
Definition accents : list (Z * Z) :=
  [(0xC1, 0x300); (0xC2, 0x301); (0xC3, 0x302); (0xC4, 0x303); (0xC5, 0x304); (0xC6, 0x306); (0xC7, 0x307);
   (0xC8, 0x308); (0xCA, 0x30A); (0xCB, 0x327); (0xCD, 0x30B); (0xCE, 0x328); (0xCF, 0x30C)].
Definition is_accent_byte (b : Z) : Prop := 0xC1 <= b <= 0xCF.

(** Single bytes of the right-hand half of the code table. *)
Definition right_half : list (Z * Z) :=
  [(0xA1, 0xA1) (* inverted ! *); (0xA2, 0xA2) (* cent *); (0xA3, 0xA3) (* pound *); (0xA4, 0x24) (* dollar *);
   (0xA5, 0xA5) (* yen *); (0xA7, 0xA7) (* section *); (0xA8, 0xA4) (* currency *); (0xA9, 0x2018); (0xAA, 0x201C);
   (0xAB, 0xAB) (* left guillemet *); (0xAC, 0x2190); (0xAD, 0x2191); (0xAE, 0x2192); (0xAF, 0x2193) (* arrows *);
   (0xB0, 0xB0) (* degree *); (0xB1, 0xB1) (* plus-minus *); (0xB2, 0xB2); (0xB3, 0xB3) (* superscripts *);
   (0xB4, 0xD7) (* times *); (0xB5, 0xB5) (* micro *); (0xB6, 0xB6) (* pilcrow *); (0xB7, 0xB7) (* middle dot *);
   (0xB8, 0xF7) (* divide *); (0xB9, 0x2019); (0xBA, 0x201D); (0xBB, 0xBB) (* right guillemet *);
   (0xBC, 0xBC); (0xBD, 0xBD); (0xBE, 0xBE) (* fractions *); (0xBF, 0xBF) (* inverted ? *);
   (0xD0, 0x2015) (* horizontal bar *); (0xD1, 0xB9); (0xD2, 0xAE) (* registered *); (0xD3, 0xA9) (* copyright *);
   (0xD4, 0x2122) (* trademark *); (0xD5, 0x266A) (* note *); (0xD6, 0xAC) (* not *); (0xD7, 0xA6) (* broken bar *);
   (0xDC, 0x215B); (0xDD, 0x215C); (0xDE, 0x215D); (0xDF, 0x215E) (* eighths *);
   (0xE0, 0x2126) (* ohm *); (0xE1, 0xC6) (* AE *); (0xE2, 0x110) (* D stroke *); (0xE3, 0xAA); (0xE4, 0x126) (* H stroke *);
   (0xE6, 0x132) (* IJ *); (0xE7, 0x13F) (* L middle dot *); (0xE8, 0x141) (* L stroke *); (0xE9, 0xD8) (* O slash *);
   (0xEA, 0x152) (* OE *); (0xEB, 0xBA); (0xEC, 0xDE) (* thorn *); (0xED, 0x166) (* T stroke *); (0xEE, 0x14A) (* eng *);
   (0xEF, 0x149) (* n apostrophe *); (0xF0, 0x138) (* kra *); (0xF1, 0xE6); (0xF2, 0x111); (0xF3, 0xF0) (* eth *);
   (0xF4, 0x127); (0xF5, 0x131) (* dotless i *); (0xF6, 0x133); (0xF7, 0x140); (0xF8, 0x142); (0xF9, 0xF8); (0xFA, 0x153);
   (0xFB, 0xDF) (* sharp s *); (0xFC, 0xFE); (0xFD, 0x167); (0xFE, 0x14B); (0xFF, 0xAD) (* soft hyphen *)].

(** Compositions that the standard's repertoire does not have: E, I, O with breve and g with cedilla. *)
Definition not_in_repertoire : list Z := [0x114; 0x115; 0x12C; 0x12D; 0x14E; 0x14F; 0x123].

(** The byte sequence [bs] stands for the character [c]. *)
Inductive glyph : list Z -> Z -> Prop :=
| glyph_newline : glyph [10] 10
| glyph_ascii b : 32 <= b <= 126 -> glyph [b] b
| glyph_right b c : In (b, c) right_half -> glyph [b] c
| glyph_accented a m b c : In (a, m) accents -> In (b, m, c) compositions -> ~ In c not_in_repertoire -> glyph [a; b] c.

Definition representable (c : Z) : Prop := exists bs, glyph bs c.

(** The documented substitutes: low double quote to double quote, dashes to horizontal bar, hyphens to hyphen-minus, prime to
    apostrophe. *)
Definition substitute (c : Z) : option Z :=
  if Z.eqb c 0x201E then Some 0x201C
  else if Z.eqb c 0x2013 then Some 0x2015
  else if Z.eqb c 0x2014 then Some 0x2015
  else if Z.eqb c 0x2010 then Some 45
  else if Z.eqb c 0x2011 then Some 45
  else if Z.eqb c 0x2012 then Some 45
  else if Z.eqb c 0x2032 then Some 39
  else None.

(** Combining marks on their own, as the library writes them: the accent byte, except that it has U+032B instead of U+0328 for
    the ogonek byte. *)
Definition lone_marks : list (Z * Z) := (0xCE, 0x32B) :: filter (fun e => negb (Z.eqb (fst e) 0xCE)) accents.
Definition lone_mark (c : Z) : Prop := In c (map snd lone_marks).

(** The bytes written for a character. *)
Inductive written : Z -> list Z -> Prop :=
| written_glyph c bs : glyph bs c -> (c = 36 -> bs = [0xA4]) -> written c bs
| written_mark a c : In (a, c) lone_marks -> written c [a]
| written_substitute c d bs : substitute c = Some d -> glyph bs d -> written c bs
| written_nothing c : ~ representable c -> ~ lone_mark c -> substitute c = None -> written c [].

(** What is left of a character after writing and reading: itself, its substitute, or nothing. *)
Inductive survives : Z -> list Z -> Prop :=
| survives_same c : representable c -> survives c [c]
| survives_substitute c d : substitute c = Some d -> survives c [d]
| survives_dropped c : ~ representable c -> substitute c = None -> survives c [].

(** The numeric values of the bytes of a string. *)
Definition bytes (s : str) : list Z := map char_code s.

(** The states of the global tables a process can be in: any sequence of conversions from the start. *)
Inductive call : Type := Decode (s : str) | Encode (w : wstr).
Definition after_call (t : tables) (c : call) : tables :=
  match c with
  | Decode s => fst (iso6937_to_utf16 t s)
  | Encode w => fst (utf16_to_iso6937 t w)
  end.
Definition after (h : list call) : tables := fold_left after_call h tables_empty.

(** What decoding a byte sequence means: up to the first NUL, each byte that is not an accent gives one character, composed with
    the accent before it if there is one (the last one if there are several); a byte or pair that means nothing gives U+0000. *)
Inductive decodes : option Z -> list Z -> list Z -> Prop :=
| decodes_end d : decodes d [] []
| decodes_nul d rest : decodes d (0 :: rest) []
| decodes_accent d a rest w : is_accent_byte a -> decodes (Some a) rest w -> decodes d (a :: rest) w
| decodes_single b c rest w : b <> 0 -> ~ is_accent_byte b -> glyph [b] c -> decodes None rest w -> decodes None (b :: rest) (c :: w)
| decodes_unknown b rest w : b <> 0 -> ~ is_accent_byte b -> (forall c, ~ glyph [b] c) ->
    decodes None rest w -> decodes None (b :: rest) (0 :: w)
| decodes_pair a b c rest w : b <> 0 -> ~ is_accent_byte b -> glyph [a; b] c -> decodes None rest w ->
    decodes (Some a) (b :: rest) (c :: w)
| decodes_unknown_pair a b rest w : b <> 0 -> ~ is_accent_byte b -> In a (map fst accents) -> (forall c, ~ glyph [a; b] c) ->
    decodes None rest w -> decodes (Some a) (b :: rest) (0 :: w).

(** An unassigned accent byte (C9, CC) directly before a byte it would have to be composed with, before any NUL. *)
Definition unassigned_accent_used (bs : list Z) : Prop :=
  exists p a b q, bs = p ++ a :: b :: q /\ ~ In 0 p /\ (a = 0xC9 \/ a = 0xCC) /\ b <> 0 /\ ~ is_accent_byte b.

(** Bytes with a special meaning in the text field of an STL file, newline excepted. *)
Definition control_code (b : Z) : Prop := (0 <= b < 32 /\ b <> 10) \/ 127 <= b <= 159.

(** Decoding [bs] after the accent [d] comes to a byte [b] that means nothing there, on its own (None) or after an accent: in
    front of the first NUL, and of the first unassigned accent that is used. *)
Definition meaningless (d : option Z) (b : Z) : Prop :=
  match d with
  | None => forall c, ~ glyph [b] c
  | Some a => In a (map fst accents) /\ forall c, ~ glyph [a; b] c
  end.
Inductive comes_to : option Z -> list Z -> option Z -> Z -> Prop :=
| comes_here d b rest : b <> 0 -> ~ is_accent_byte b -> meaningless d b -> comes_to d (b :: rest) d b
| comes_accent d a rest x b : is_accent_byte a -> comes_to (Some a) rest x b -> comes_to d (a :: rest) x b
| comes_later d b rest x b' : b <> 0 -> ~ is_accent_byte b -> (forall a, d = Some a -> In a (map fst accents)) ->
    comes_to None rest x b' -> comes_to d (b :: rest) x b'.
(** A byte without meaning has been decoded in this history. *)
Definition stray (h : list call) (d : option Z) (b : Z) : Prop := exists s, In (Decode s) h /\ comes_to None (bytes s) d b.
(** Bytes in the order of char, which is signed. *)
Definition as_char (b : Z) : Z := if b <? 128 then b else b - 256.
(** What U+0000 is written as: the first byte without meaning that has been decoded; if there is none, the first such pair. *)
Inductive nul_written (h : list call) : list Z -> Prop :=
| nul_byte b : stray h None b -> (forall b', stray h None b' -> as_char b <= as_char b') -> nul_written h [b]
| nul_pair a b : (forall b', ~ stray h None b') -> stray h (Some a) b ->
    (forall a' b', stray h (Some a') b' -> a < a' \/ a' = a /\ as_char b <= as_char b') -> nul_written h [a; b]
| nul_nothing : (forall d b, ~ stray h d b) -> nul_written h [].
