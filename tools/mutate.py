#!/usr/bin/env python3
"""Mutation testing of the theorems.  usage: mutate.py muts.json [only-id...]
muts.json: list of {"id","file","definition","old","new","edit","claim"}.  Works in /tmp/scratch (a copy of rocq/ with its
compiled files), applies the edit to the model, rebuilds, and reports which lemmas/theorems fail.  A failing Example is
removed and the build continues (examples are tests, not theorems)."""
import json, os, re, subprocess, sys, shutil
SC = os.environ.get('SC', '/tmp/scratch')
muts = json.load(open(sys.argv[1])); only = set(sys.argv[2:])
def sh(c, t=1500): return subprocess.run(c, shell=True, capture_output=True, text=True, timeout=t)
sh(f'mkdir -p {SC}; rm -rf {SC}/rocq; cp -a /verif/rocq {SC}/rocq')
sh(f'cd {SC}/rocq && coq_makefile -f _CoqProject -o Makefile')
r = sh(f'cd {SC}/rocq && timeout 3000 make -j4 2>&1 | tail -3', 3100)
sh(f'rm -rf {SC}/base; cp -a {SC}/rocq/theories {SC}/base')
def name_at(path, line):
    ls = open(path).read().split('\n')
    for i in range(line - 1, -1, -1):
        m = re.match(r'\s*(Lemma|Theorem|Example|Corollary|Definition|Fixpoint|Fact|Remark)\s+([\w\']+)', ls[i])
        if m: return m.group(1), m.group(2), i
    return None, None, 0
for m in muts:
    if only and m['id'] not in only: continue
    f = f"{SC}/rocq/theories/{m['file']}"
    src = open(f"/verif/rocq/theories/{m['file']}").read()
    if src.count(m['old']) < 1: print(m['id'], 'PATTERN NOT FOUND'); continue
    sh(f'rm -rf {SC}/rocq/theories; cp -a {SC}/base {SC}/rocq/theories')
    open(f, 'w').write(src.replace(m['old'], m['new'], 1))
    failed, examples = [], []
    for _ in range(12):
        r = sh(f'cd {SC}/rocq && timeout 1400 make -k -j2 {os.environ.get("TARGETS", "")} 2>&1')
        errs = re.findall(r'File "\./theories/(\w+\.v)", line (\d+),.*?\n(Error|.*\nError)', r.stdout)
        again = False
        for fn, ln, _x in errs:
            p = f'{SC}/rocq/theories/{fn}'
            k, n, i = name_at(p, int(ln))
            if k == 'Example':
                examples.append(n)
                ls = open(p).read().split('\n')
                j = i
                while not re.search(r'Qed\.', ls[j]): j += 1
                del ls[i:j + 1]
                open(p, 'w').write('\n'.join(ls)); again = True
            elif f'{fn}:{n}' not in failed: failed.append(f'{fn}:{n}')
        if not again: break
    st = 'KILLED' if failed else 'SURVIVED'
    print(m['id'], st, failed, 'examples:', examples, flush=True)
    rec = {"id": m['id'], "definition": m['definition'], "edit": m['edit'], "claim": m['claim'], "theorems_failed": failed, "examples_failed": examples, "theorems_tightened": m.get('tightened', [])}
    if m.get('note'): rec['note'] = m['note']
    if m.get('log', True):
        with open('/verif/seeded/LOG.jsonl', 'a') as g: g.write(json.dumps(rec) + '\n')
