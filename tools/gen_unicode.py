#!/usr/bin/env python3
"""Generates rocq/theories/Spec/UnicodeSpec.v: canonical compositions of ASCII letters with the combining marks that ISO 6937
has accents for, from Python's copy of the Unicode character database.  It does not read /repo."""
import os, unicodedata
MARKS = [0x300, 0x301, 0x302, 0x303, 0x304, 0x306, 0x307, 0x308, 0x30a, 0x327, 0x30b, 0x328, 0x30c]
here = os.path.dirname(os.path.abspath(__file__))
out = ["""(** GENERATED by tools/gen_unicode.py from the Unicode character database (version %s). *)
From Coq Require Import ZArith List.
Import ListNotations.
Local Open Scope Z_scope.

(** (letter, combining mark, precomposed character): the canonical compositions of ASCII letters with these marks that lie in the
    blocks Latin-1 Supplement and Latin Extended-A, and g with acute. *)
Definition compositions : list (Z * Z * Z) :=
  [""" % unicodedata.unidata_version]
items = []
for m in MARKS:
    for b in list(range(65, 91)) + list(range(97, 123)):
        x = unicodedata.normalize("NFC", chr(b) + chr(m))
        if len(x) == 1 and (ord(x) < 0x180 or ord(x) == 0x1f5):
            assert unicodedata.normalize("NFD", x) == chr(b) + chr(m)
            items.append("(%d, 0x%04x, 0x%04x)" % (b, m, ord(x)))
lines, cur = [], ""
for i in items:
    if len(cur) + len(i) > 110:
        lines.append(cur); cur = ""
    cur += i + "; "
lines.append(cur)
out.append("\n   ".join(l.rstrip() for l in lines).rstrip("; ") + "].\n")
open(os.path.join(here, "../rocq/theories/Spec/UnicodeSpec.v"), "w").write("".join(out))
print(len(items))
