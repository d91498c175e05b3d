#!/usr/bin/env python3
"""Apply wrong-program edits to a scratch copy of the model and see which proofs fail.

usage: seed.py mutations.json [log]
mutations.json: list of {"definition", "file", "old", "new", "edit", "claim"}
Each edit is applied to a fresh copy (compiled files included, so only dependants rebuild).
"""
import json, os, re, shutil, subprocess, sys
SRC, DST = os.environ.get('SEEDSRC', '/verif/rocq'), os.environ.get('SEEDDST', '/tmp/scratch')
def enclosing(path, line):
    name = None
    for i, l in enumerate(open(path).read().split('\n'), 1):
        if i > line: break
        m = re.match(r'\s*(?:Theorem|Lemma|Example|Corollary|Definition|Fixpoint|Ltac)\s+([\w\']+)', l)
        if m: name = m.group(1)
    return name
muts = json.load(open(sys.argv[1])); log = sys.argv[2] if len(sys.argv) > 2 else None
for m in muts:
    shutil.rmtree(DST, ignore_errors=True); subprocess.run(['cp', '-a', SRC, DST], check=True)
    p = f"{DST}/theories/{m['file']}"; s = open(p).read()
    assert s.count(m['old']) >= 1, ('old text not found', m)
    if s.count(m['old']) > 1 and not m.get('first'): print('WARNING several matches', m['definition'])
    open(p, 'w').write(s.replace(m['old'], m['new'], 1))
    r = subprocess.run(['timeout', '600', 'make', '-k', '-j4'], cwd=DST, capture_output=True, text=True)
    out = r.stdout + r.stderr
    fails = []
    for f, ln in re.findall(r'File "\./theories/(\w+\.v)", line (\d+)[^\n]*\nError', out):
        fails.append(f"{f[:-2]}.{enclosing(f'{DST}/theories/{f}', int(ln))}")
    if r.returncode == 124:
        stuck = sorted(f for f in os.listdir(DST + '/theories') if f.endswith('.v') and not os.path.exists(f'{DST}/theories/{f}o'))
        fails.append('(stopped after 600 s; not compiled: ' + ', '.join(f[:-2] for f in stuck) + ')')
    deps = {f[:-2]: set(re.findall(r'\w+', ' '.join(re.findall(r'From Verif Require Import ([^.]*)\.', open(f'{DST}/theories/{f}').read()))))
            for f in os.listdir(DST + '/theories') if f.endswith('.v')}
    bad = {x.split('.')[0] for x in fails}; blocked = set()
    while True:
        more = {f for f in deps if f not in bad | blocked and deps[f] & (bad | blocked)}
        if not more: break
        blocked |= more
    blocked = sorted(f for f in blocked if 'Props' in f)
    print(m['definition'], '|', m['edit'], '->', fails or 'NOTHING FAILED', 'blocked', blocked, flush=True)
    if log:
        e = dict(definition=m['definition'], edit=m['edit'], claim=m['claim'], theorems_failed=fails, files_blocked=blocked, theorems_tightened=m.get('tightened', []))
        if m.get('note'): e['note'] = m['note']
        open(log, 'a').write(json.dumps(e) + '\n')
