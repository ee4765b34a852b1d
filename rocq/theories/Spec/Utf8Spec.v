(** UTF-8 (RFC 3629). *)
From Coq Require Import ZArith List Ascii.
From Verif.Model Require Import Base.
From Verif.Spec Require Import TextSpec.
Import ListNotations.
Local Open Scope Z_scope.

(** Unicode scalar values: code points that are not surrogates. *)
Definition scalar (v : Z) : Prop := 0 <= v <= 0x10FFFF /\ ~ (0xD800 <= v <= 0xDFFF).

(** Six bits carried by a trailing byte. *)
Definition six (b : Z) : Prop := 0 <= b < 64.

Inductive utf8_char : Z -> list Z -> Prop :=
| utf8_one v : 0 <= v < 0x80 -> utf8_char v [v]
| utf8_two a b : six b -> 0x80 <= a * 64 + b < 0x800 -> utf8_char (a * 64 + b) [0xC0 + a; 0x80 + b]
| utf8_three a b c : six b -> six c -> 0x800 <= a * 4096 + b * 64 + c < 0x10000 -> scalar (a * 4096 + b * 64 + c) ->
    utf8_char (a * 4096 + b * 64 + c) [0xE0 + a; 0x80 + b; 0x80 + c]
| utf8_four a b c d : six b -> six c -> six d -> 0x10000 <= a * 262144 + b * 4096 + c * 64 + d <= 0x10FFFF ->
    utf8_char (a * 262144 + b * 4096 + c * 64 + d) [0xF0 + a; 0x80 + b; 0x80 + c; 0x80 + d].

(** The string [s] is the encoding of the characters [w]. *)
Definition utf8 (s : str) (w : list Z) : Prop :=
  exists parts, Forall2 utf8_char w parts /\ map char_code s = concat parts.

(** Decoding any bytes, leaving out what is not UTF-8.  The number of bytes that should follow a first byte: *)
Definition followers (b : Z) (n : nat) : Prop :=
  (b < 0x80 /\ n = 0%nat) \/ (0xC2 <= b <= 0xDF /\ n = 1%nat) \/ (0xE0 <= b <= 0xEF /\ n = 2%nat) \/ (0xF0 <= b <= 0xF4 /\ n = 3%nat).
Definition trailing (b : Z) : Prop := 0x80 <= b <= 0xBF.
Inductive utf8_reads : list Z -> list Z -> Prop :=
| reads_end : utf8_reads [] []
(** a character *)
| reads_char v bs rest w : utf8_char v bs -> utf8_reads rest w -> utf8_reads (bs ++ rest) (v :: w)
(** a byte that cannot be the first of a character *)
| reads_stray b rest w : (forall n, ~ followers b n) -> utf8_reads rest w -> utf8_reads (b :: rest) w
(** a character broken off by a byte that cannot be in it, which is lost too *)
| reads_broken b n ts x rest w : followers b n -> (length ts < n)%nat -> Forall trailing ts -> ~ trailing x ->
    utf8_reads rest w -> utf8_reads (b :: ts ++ x :: rest) w
(** or by the end of the text *)
| reads_cut b n ts : followers b n -> (length ts < n)%nat -> Forall trailing ts -> utf8_reads (b :: ts) []
(** the right number of bytes, but not the encoding of a character *)
| reads_bad b n ts rest w : followers b n -> length ts = n -> Forall trailing ts -> (forall v, ~ utf8_char v (b :: ts)) ->
    utf8_reads rest w -> utf8_reads (b :: ts ++ rest) w.
