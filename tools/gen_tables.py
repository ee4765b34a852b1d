#!/usr/bin/env python3
"""Generate theories/Model/Iso6937Tables.v and StlTables.v from /repo/src/iso6937_tables.cc and
/repo/src/stl_binary_tables.{cc,h}."""
import re, os
out = os.path.join(os.path.dirname(os.path.abspath(__file__)), '../rocq/theories/Model')

def signed(b):
    return b if b < 128 else b - 256

# ---- ISO 6937
maps = {}
lines = {}
dia = []
for n, l in enumerate(open('/repo/src/iso6937_tables.cc'), 1):
    m = re.match(r"\s*(\w+)\[(.*)\] = (0x[0-9A-Fa-f]+);", l)
    if m:
        name, k, v = m.groups()
        if k.startswith("'"):
            k = k[1:-1]
            if k.startswith('\\'):
                k = k[1:]
            key = ord(k)
        else:
            key = int(k.rstrip('U'))
        maps.setdefault(name, {})[key] = int(v, 16)
        lines.setdefault(name, []).append(n)
    m = re.match(r"\s*diacriticals\[0x(..)\] = &(\w+);", l)
    if m:
        dia.append((int(m.group(1), 16), m.group(2), n))
with open(out + '/Iso6937Tables.v', 'w') as f:
    f.write('(** GENERATED by tools/gen_tables.py from /repo/src/iso6937_tables.cc. *)\n'
            'From Coq Require Import ZArith List.\nImport ListNotations.\nLocal Open Scope Z_scope.\n\n'
            '(** A std::map<char, wchar_t>: pairs of key (as an unsigned byte) and value, in the order of the map, which is\n'
            '    that of signed char (128 to 255 come before 0 to 127). *)\n'
            'Definition cmap : Type := list (Z * Z).\n\n')
    for name, m in maps.items():
        ks = sorted(m, key=signed)
        f.write('(** iso6937::%s, iso6937_tables.cc %d-%d. *)\nDefinition iso_%s : cmap :=\n  [' % (name, min(lines[name]), max(lines[name]), name))
        items = ['(%d, 0x%04x)' % (k, m[k]) for k in ks]
        f.write(';\n   '.join('; '.join(items[i:i+8]) for i in range(0, len(items), 8)))
        f.write('].\n\n')
    f.write('(** iso6937::diacriticals, iso6937_tables.cc %d-%d. *)\nDefinition iso_diacriticals : list (Z * cmap) :=\n  [' % (dia[0][2], dia[-1][2]))
    f.write(';\n   '.join('(0x%02x, iso_%s)' % (k, n) for k, n, _ in sorted(dia, key=lambda t: signed(t[0]))))
    f.write('].\n')

# ---- STL tables
enums = {}
cur = None
for n, l in enumerate(open('/repo/src/stl_binary_tables.h'), 1):
    m = re.match(r'enum (\w+) \{', l)
    if m:
        cur = m.group(1); enums[cur] = [n, n, []]; continue
    if cur:
        if '};' in l:
            enums[cur][1] = n; cur = None; continue
        m = re.match(r'\s*(\w+)', l)
        if m: enums[cur][2].append(m.group(1))
tabs = {}
for n, l in enumerate(open('/repo/src/stl_binary_tables.cc'), 1):
    m = re.match(r'\s*code<(\w+), (\w+)> \((\w+), (.*?), (\w+), "(.*)"\);', l)
    if m:
        E, F, mp, k, v, d = m.groups()
        k = k[1:-1] if F == 'string' else int(k)
        t = tabs.setdefault(mp, [E, F, n, n, {}])
        t[3] = n
        t[4][k] = (v, d)
with open(out + '/StlTables.v', 'w') as f:
    f.write('(** GENERATED by tools/gen_tables.py from /repo/src/stl_binary_tables.{h,cc}. *)\n'
            'From Coq Require Import ZArith List Bool Ascii String.\nFrom Verif.Model Require Import Base Strings Compose.\nImport ListNotations.\nLocal Open Scope Z_scope.\n\n')
    for E, (a, b, vs) in enums.items():
        t = {'Comment': 'stl_comment'}.get(E, re.sub(r'(?<!^)([A-Z])', r'_\1', E).lower())
        enums[E].append(t)
        f.write('(** enum %s, stl_binary_tables.h %d-%d. *)\nInductive %s : Type :=\n' % (E, a, b, t))
        f.write('\n'.join('| ' + ' | '.join(vs[i:i+4]) for i in range(0, len(vs), 4)))
        f.write('.\n(** == on this enum (stl_binary_tables.cc 48-73). *)\nDefinition %s_eqb (a b : %s) : bool :=\n' % (t, t))
        f.write('  Nat.eqb (match a with\n' + '\n'.join('    ' + ' '.join('| %s => %d' % (v, i+j) for j, v in enumerate(vs[i:i+4])) for i in range(0, len(vs), 4)) + ' end)%nat\n')
        f.write('          (match b with\n' + '\n'.join('    ' + ' '.join('| %s => %d' % (v, i+j) for j, v in enumerate(vs[i:i+4])) for i in range(0, len(vs), 4)) + ' end)%nat.\n\n')
    f.write('''(** A std::map<F, STLBinaryCode<E>>: key, value, description; in the order of the keys. *)
Definition stl_table (F E : Type) : Type := list (F * (E * string)).

''')
    for mp, (E, F, a, b, m) in tabs.items():
        t = enums[E][3]
        name = mp.strip('_')
        f.write('(** %s, stl_binary_tables.cc %d-%d. *)\nDefinition %s : stl_table %s %s :=\n  [' % (mp, a, b, name, 'string' if F == 'string' else 'Z', t))
        ks = sorted(m, key=(lambda s: s.encode()) if F == 'string' else (lambda x: x))
        items = []
        for k in ks:
            kk = '"%s"%%string' % k if F == 'string' else str(k)
            items.append('(%s, (%s, "%s"%%string))' % (kk, m[k][0], m[k][1]))
        f.write(';\n   '.join(items))
        f.write('].\n\n')
    f.write('''(** file_to_enum, stl_binary_tables.cc 36-46, for string keys; [name] is used in the message. *)
Fixpoint file_to_enum {E : Type} (k : str) (m : stl_table string E) : option E :=
  match m with
  | [] => None
  | (f, (e, _)) :: t => if str_eqb (lit f) k then Some e else file_to_enum k t
  end.
(** file_to_enum with its exception, stl_binary_tables.cc 36-46. *)
Definition file_to_enum_or_throw {E : Type} (k : str) (m : stl_table string E) (name : string) : res E :=
  match file_to_enum k m with
  | Some e => Ok e
  | None => Throw (EStl (compose (lit "Unknown %1 %2 in binary STL file") [lit name; k]))
  end.
(** file_to_enum for int keys, stl_binary_tables.cc 36-46. *)
Fixpoint file_to_enum_int {E : Type} (k : Z) (m : stl_table Z E) : option E :=
  match m with
  | [] => None
  | (f, (e, _)) :: t => if f =? k then Some e else file_to_enum_int k t
  end.
(** The same with its exception, stl_binary_tables.cc 36-46. *)
Definition file_to_enum_int_or_throw {E : Type} (k : Z) (m : stl_table Z E) (name : string) : res E :=
  match file_to_enum_int k m with
  | Some e => Ok e
  | None => Throw (EStl (compose (lit "Unknown %1 %2 in binary STL file") [lit name; print_int k]))
  end.

(** enum_to_file, stl_binary_tables.cc 48-60. *)
Fixpoint enum_to_file {E F : Type} (eqb : E -> E -> bool) (k : E) (m : stl_table F E) : res F :=
  match m with
  | [] => Throw EProgramming
  | (f, (e, _)) :: t => if eqb e k then Ok f else enum_to_file eqb k t
  end.

(** enum_to_description, stl_binary_tables.cc 62-73. *)
Fixpoint enum_to_description {E F : Type} (eqb : E -> E -> bool) (v : E) (m : stl_table F E) : str :=
  match m with
  | [] => []
  | (_, (e, d)) :: t => if eqb e v then lit d else enum_to_description eqb v t
  end.

(** description_to_enum, stl_binary_tables.cc 75-86. *)
Fixpoint description_to_enum {E F : Type} (d : str) (m : stl_table F E) : option E :=
  match m with
  | [] => None
  | (_, (e, d')) :: t => if str_eqb (lit d') d then Some e else description_to_enum d t
  end.

(** STLBinaryTables::display_standard_file_to_enum, stl_binary_tables.cc 88-92. *)
Definition display_standard_file_to_enum (s : str) : res display_standard :=
  file_to_enum_or_throw s display_standard_map "display standard code".
(** STLBinaryTables::language_group_file_to_enum, stl_binary_tables.cc 94-98. *)
Definition language_group_file_to_enum (s : str) : res language_group :=
  file_to_enum_or_throw s language_group_map "language group code".
(** STLBinaryTables::language_file_to_enum, stl_binary_tables.cc 100-104. *)
Definition language_file_to_enum (s : str) : res language :=
  file_to_enum_or_throw s language_map "language code".
(** STLBinaryTables::timecode_status_file_to_enum, stl_binary_tables.cc 106-110. *)
Definition timecode_status_file_to_enum (s : str) : res timecode_status :=
  file_to_enum_or_throw s timecode_status_map "timecode status code".
(** STLBinaryTables::cumulative_status_file_to_enum, stl_binary_tables.cc 112-116. *)
Definition cumulative_status_file_to_enum (s : Z) : res cumulative_status :=
  file_to_enum_int_or_throw s cumulative_status_map "cumulative status code".
(** STLBinaryTables::justification_file_to_enum, stl_binary_tables.cc 118-122. *)
Definition justification_file_to_enum (s : Z) : res justification :=
  file_to_enum_int_or_throw s justification_map "justification code".
(** STLBinaryTables::comment_file_to_enum, stl_binary_tables.cc 124-128. *)
Definition comment_file_to_enum (s : Z) : res stl_comment :=
  file_to_enum_int_or_throw s comment_map "comment code".
(** STLBinaryTables::language_enum_to_file, stl_binary_tables.cc 130-134. *)
Definition language_enum_to_file (e : language) : res string := enum_to_file language_eqb e language_map.
(** STLBinaryTables::cumulative_status_enum_to_file, stl_binary_tables.cc 136-140. *)
Definition cumulative_status_enum_to_file (e : cumulative_status) : res Z :=
  enum_to_file cumulative_status_eqb e cumulative_status_map.
(** STLBinaryTables::justification_enum_to_file, stl_binary_tables.cc 142-146. *)
Definition justification_enum_to_file (e : justification) : res Z :=
  enum_to_file justification_eqb e justification_map.
(** STLBinaryTables::comment_enum_to_file, stl_binary_tables.cc 148-152. *)
Definition comment_enum_to_file (e : stl_comment) : res Z := enum_to_file stl_comment_eqb e comment_map.
(** STLBinaryTables::display_standard_enum_to_description, stl_binary_tables.cc 154-158. *)
Definition display_standard_enum_to_description (e : display_standard) : str :=
  enum_to_description display_standard_eqb e display_standard_map.
(** STLBinaryTables::language_group_enum_to_description, stl_binary_tables.cc 160-164. *)
Definition language_group_enum_to_description (e : language_group) : str :=
  enum_to_description language_group_eqb e language_group_map.
(** STLBinaryTables::language_enum_to_description, stl_binary_tables.cc 166-170. *)
Definition language_enum_to_description (e : language) : str := enum_to_description language_eqb e language_map.
(** STLBinaryTables::timecode_status_enum_to_description, stl_binary_tables.cc 172-176. *)
Definition timecode_status_enum_to_description (e : timecode_status) : str :=
  enum_to_description timecode_status_eqb e timecode_status_map.
(** STLBinaryTables::cumulative_status_enum_to_description, stl_binary_tables.cc 178-182. *)
Definition cumulative_status_enum_to_description (e : cumulative_status) : str :=
  enum_to_description cumulative_status_eqb e cumulative_status_map.
(** STLBinaryTables::justification_enum_to_description, stl_binary_tables.cc 184-188. *)
Definition justification_enum_to_description (e : justification) : str :=
  enum_to_description justification_eqb e justification_map.
(** STLBinaryTables::comment_enum_to_description, stl_binary_tables.cc 190-194. *)
Definition comment_enum_to_description (e : stl_comment) : str :=
  enum_to_description stl_comment_eqb e comment_map.
(** STLBinaryTables::language_description_to_enum, stl_binary_tables.cc 196-200. *)
Definition language_description_to_enum (d : str) : option language := description_to_enum d language_map.
''')
