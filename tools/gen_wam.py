#!/usr/bin/env python3
"""Generate rocq/theories/WamData.v from resqpy/olio/data/properties.json and the alias
table of resqpy/weights_and_measures/weights_and_measures.py (read as text)."""
import json, ast, sys
from fractions import Fraction
repo, out = sys.argv[1:3]
d = json.load(open(repo + '/resqpy/olio/data/properties.json'), parse_float = Fraction, parse_int = Fraction)
src = open(repo + '/resqpy/weights_and_measures/weights_and_measures.py').read()
i = src.index('UOM_ALIASES = {'); j = src.index('# Mapping from alias to valid')
aliases = ast.literal_eval(src[i + len('UOM_ALIASES = '):j])
i = src.index('CASE_INSENSITIVE_UOMS = {'); j = src.index('}', i)
ci = ast.literal_eval(src[i + len('CASE_INSENSITIVE_UOMS = '):j + 1])
def s(x):
    assert all(32 <= ord(c) < 127 for c in x), x
    return '"' + x.replace('"', '""') + '"'
def q(f):
    f = Fraction(f)
    n = str(f.numerator) if f.numerator >= 0 else '(%d)' % f.numerator
    return '%s # %d' % (n, f.denominator)
w = []
w.append('(** WamData.v: generated by tools/gen_wam.py from resqpy/olio/data/properties.json (the')
w.append('    "units" and "quantities" sections, numbers taken as exact decimals) and from')
w.append('    resqpy/weights_and_measures/weights_and_measures.py:25-80 (aliases). *)')
w.append('From Coq Require Import List String QArith.')
w.append('Import ListNotations.')
w.append('Open Scope string_scope. Open Scope list_scope.')
w.append('(* properties.json "units": name, base unit and factors A, B, C, D (None for base units), dimension *)')
w.append('Definition units_data : list (string * option (string * (Q * Q * Q * Q)) * string) := [')
rows = []
for k, v in d['units'].items():
    if 'A' in v:
        rows.append('  (%s, Some (%s, (%s, %s, %s, %s)), %s)' % (s(k), s(v['baseUnit']), q(v['A']), q(v['B']), q(v['C']), q(v['D']), s(v['dimension'])))
    else:
        rows.append('  (%s, None, %s)' % (s(k), s(v['dimension'])))
w.append(';\n'.join(rows) + '].')
w.append('(* properties.json "quantities": name and members *)')
w.append('Definition quantities_data : list (string * list string) := [')
w.append(';\n'.join('  (%s, [%s])' % (s(k), '; '.join(s(m) for m in v['members'])) for k, v in d['quantities'].items()) + '].')
w.append('(* weights_and_measures.py:25-77 UOM_ALIASES with casefolded aliases, as UOM_ALIAS_MAP *)')
flat = {}
for k, v in aliases.items():
    for a in sorted(v):
        flat[a.casefold()] = k
w.append('Definition alias_data : list (string * string) := [')
w.append(';\n'.join('  (%s, %s)' % (s(a), s(u)) for a, u in flat.items()) + '].')
w.append('(* weights_and_measures.py:80 CASE_INSENSITIVE_UOMS *)')
w.append('Definition case_insensitive_data : list string := [%s].' % '; '.join(s(x) for x in sorted(ci)))
open(out, 'w').write('\n'.join(w) + '\n')
