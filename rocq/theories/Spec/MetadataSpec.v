(** The metadata of a binary STL file. *)
From Coq Require Import ZArith List Bool Ascii String.
From Verif.Model Require Import Base StlTables.
From Verif.Spec Require Import TextSpec StlTableSpec StlFileSpec DumpSpec.
Import ListNotations.
Local Open Scope Z_scope.

(** What is at some position of the header: text, a number, or a code that stands for a description. *)
Inductive field : Type :=
| Text (at_ n : nat)
| Number (at_ n : nat)
| Code {E : Type} (at_ n : nat) (t : list (str * E * str))
| LanguageGroup
| FrameRate
| Rows.
Definition field_value (head : str) (f : field) (v : str) : Prop :=
  match f with
  | Text a n => bytes_at head a n v
  | Number a n => exists z, number_at head a n z /\ shown_int v z
  | Code a n t => exists c e, bytes_at head a n c /\ In (c, e, v) t
  | LanguageGroup => exists c e d c', bytes_at head 12 2 c /\ In (c, e, d) reader_language_groups /\ In (c', e, v) ebu_language_groups
  | FrameRate => exists c z, bytes_at head 3 8 c /\ In (c, z) reader_rates /\ shown_int v z
  | Rows => exists r z, number_at head 253 2 r /\ (r = 99 /\ z = 12 \/ r <> 99 /\ z = r) /\ shown_int v z
  end.
Definition metadata_fields : list (string * field) :=
  [ ("Code page number", Number 0 3); ("Country of origin", Text 274 3); ("Creation date", Text 224 6);
    ("Disk sequence number", Number 273 1); ("Disks", Number 272 1); ("Display standard", Code 11 1 ebu_display_standards);
    ("Editor contact details", Text 341 32); ("Editor name", Text 309 32); ("First in cue", Text 264 8);
    ("Frame rate", FrameRate); ("Language", Code 14 2 ebu_languages); ("Language group", LanguageGroup);
    ("Maximum characters", Number 251 2); ("Maximum rows", Rows); ("Number of subtitles", Number 243 5);
    ("Original episode title", Text 48 32); ("Original programme title", Text 16 32); ("Publisher", Text 277 32);
    ("Revision date", Text 230 6); ("Revision number", Text 236 2); ("Start of programme", Text 256 8);
    ("Subtitle groups", Number 248 3); ("Subtitle list reference code", Text 208 16); ("TTI blocks", Number 238 5);
    ("Timecode status", Code 255 1 ebu_timecode_statuses); ("Translated episode title", Text 112 32);
    ("Translated programme title", Text 80 32); ("Translator contact details", Text 176 32); ("Translator name", Text 144 32) ]%string.
(** The names and values, in the order of the names. *)
Definition metadata_of (head : str) (m : list (str * str)) : Prop :=
  Forall2 (fun f kv => fst kv = lit (fst f) /\ field_value head (snd f) (snd kv)) metadata_fields m.
