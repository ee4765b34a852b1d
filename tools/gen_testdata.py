#!/usr/bin/env python3
"""Writes rocq/theories/Tests/TestData.v from the data files of /repo/test."""
import os, sys
FILES = ["horizontal_margin.ssa", "newline.srt", "test.srt", "test.ssa", "test.vtt", "test2.srt",
         "test2.ssa", "test3.srt", "test3.ssa", "test_text.stl"]
out = ["(** GENERATED by tools/gen_testdata.py from /repo/test/data: the bytes of the data files of the unit tests. *)",
       "From Coq Require Import List Ascii String.", "From Verif.Model Require Import Base.", "Local Open Scope string_scope.", ""]
for f in FILES:
    d = open("/repo/test/data/" + f, "rb").read()
    d.decode("utf-8")
    assert b"\0" not in d
    name = "data_" + f.replace(".", "_")
    s = d.replace(b'"', b'""')
    parts = s.split(b"\r")
    expr = b" ++ [chr 13] ++ ".join(b'lit "' + p + b'"' for p in parts)
    out.append("(** /repo/test/data/%s *)" % f)
    out.append("Definition %s : str :=\n  (%s)%%list." % (name, expr.decode("utf-8") if len(parts) == 1 else expr.decode("utf-8")))
    out.append("")
src = "\n".join(out)
if "[chr 13]" in src:
    src = src.replace("Local Open Scope string_scope.", "Import ListNotations.\nLocal Open Scope string_scope.", 1)
    src = src.replace("[chr 13]", "[chr 13%Z]").replace("List Ascii", "ZArith List Ascii")
open("/verif/rocq/theories/Tests/TestData.v", "w", newline="").write(src)
