#!/usr/bin/env python3
"""Try wrong programs against the theorems.

usage: seed.py SEEDS.json   (list of {file, old, new, def, edit, claim})

Every seed is applied to a scratch copy of /verif/rocq outside /verif (with its
compiled files), the copy is rebuilt, and one line is added to
/verif/seeded/LOG.jsonl.  A seed for which everything still builds is reported.
"""
import json, os, re, shutil, subprocess, sys
SCR = f'/tmp/scratch{os.getpid()}'
SRC = f'/tmp/seedsrc{os.getpid()}'
LOG = '/verif/seeded/LOG.jsonl'
def enclosing(path, line):
    name = None
    for i, l in enumerate(open(path), 1):
        if i > line: break
        m = re.match(r'\s*(?:Lemma|Theorem|Example|Corollary|Definition|Fixpoint|Instance|#\[global\] Instance)\s+(\w+)', l)
        if m: name = m.group(1)
    return name
seeds = json.load(open(sys.argv[1]))
sys.path.insert(0, os.path.dirname(os.path.abspath(__file__)))
from globdeps import dependents
theorems_using = dependents('/verif/rocq/theories')
subprocess.run(['cp', '-a', '/verif/rocq', SRC], check=True)
for s in seeds:
    shutil.rmtree(SCR, ignore_errors=True)
    subprocess.run(['cp', '-a', SRC, SCR], check=True)
    p = f"{SCR}/theories/{s['file']}"
    t = open(p).read()
    if t.count(s['old']) != 1:
        print('BAD SEED', s['def'], t.count(s['old'])); continue
    open(p, 'w').write(t.replace(s['old'], s['new']))
    if 'old2' in s:
        t = open(p).read(); assert t.count(s['old2']) == 1, s
        open(p, 'w').write(t.replace(s['old2'], s['new2']))
    # lemmas that only unfold the definition are edited with it
    for f, old, new in s.get('also', []):
        q = f"{SCR}/theories/{f}"
        t = open(q).read(); assert old in t, (s, f)
        open(q, 'w').write(t.replace(old, new, 1))
    r = subprocess.run('timeout 1800 make -k -j4 COQC="timeout 400 coqc" 2>&1', shell=True, cwd=SCR, capture_output=True, text=True)
    failed = []
    for f, l in re.findall(r'File "\./(theories/[\w/]+\.v)", line (\d+)', r.stdout):
        n = enclosing(f'{SCR}/{f}', int(l))
        e = f'{f[9:]}:{n}'
        if e not in failed: failed.append(e)
    # a file that is not accepted in time
    for f in re.findall(r'(theories/[\w/]+)\.vo\] Error 124', r.stdout):
        failed.append(f'{f[9:]}.v:None')
    used = [x for x in failed if not x.startswith('Model/')] or failed
    thms = theorems_using(['Verif.' + x.replace('.v:', '.').replace('/', '.') for x in used]) or [x.split(':')[1] for x in used]
    ids = re.findall(r'C\d\d+', s['claim'])
    only = [t for t in thms if t.split('_')[0] in ids] or thms
    rec = {'definition': s['def'], 'edit': s['edit'], 'claim_broken': s['claim'],
           'failed_at': failed, 'theorems_failed': only, 'theorems_tightened': s.get('tightened', [])}
    print(('OK  ' if failed else 'SURVIVED '), s['def'], '|', s['edit'], '|', failed)
    if failed or s.get('log_anyway'):
        open(LOG, 'a').write(json.dumps(rec) + '\n')
shutil.rmtree(SCR, ignore_errors=True); shutil.rmtree(SRC, ignore_errors=True)
