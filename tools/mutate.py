#!/usr/bin/env python3
"""Try wrong programs: apply an edit to a model file in a scratch copy, rebuild, and list the
theorems that can no longer be proved.

usage: mutate.py [id ...]      (mutants come from seeded/mutants.py)

A lemma whose proof script breaks is admitted in the scratch copy only and the build goes on; the
property theorems whose assumptions then contain an admitted lemma are those that failed.
"""
import json, os, re, shutil, subprocess, sys, time
root = os.path.dirname(os.path.dirname(os.path.abspath(__file__)))
sys.path.insert(0, os.path.join(root, 'seeded'))
from mutants import MUTANTS
scratch = os.environ.get('SCRATCH', '/tmp/mut')
JOBS = os.environ.get('JOBS', '3')
START = re.compile(r'^\s*(?:Local |Global |#\[\w+\] )*(Lemma|Theorem|Example|Corollary|Fact|Remark|Instance) (\w+)')

def prepare():
    shutil.rmtree(scratch, ignore_errors=True)
    shutil.copytree(os.path.join(root, 'rocq'), scratch)
    subprocess.run('coq_makefile -f _CoqProject -o Makefile', shell=True, cwd=scratch, check=True, stdout=subprocess.DEVNULL)

def admit(path, line):
    """Admit the lemma that contains the line; returns its name."""
    L = open(path).read().split('\n')
    i = min(line - 1, len(L) - 1)
    while i >= 0 and not START.match(L[i]): i -= 1
    if i < 0: return None
    name = START.match(L[i]).group(2)
    j = i
    while j < len(L) and not re.search(r'\b(Qed|Defined)\.', L[j]): j += 1
    if j >= len(L) or j < line - 1: return None
    k = i
    while k <= j and not re.search(r'\bProof\b', L[k]): k += 1
    if k > j: return None
    head = L[k][:re.search(r'\bProof\b', L[k]).start()]
    tail = L[j][re.search(r'\b(Qed|Defined)\.', L[j]).end():]
    L[k:j + 1] = [head + 'Admitted.' + tail] + [''] * (j - k)
    open(path, 'w').write('\n'.join(L))
    return name

def run(m):
    prepare(); t0 = time.time()
    th = os.path.join(scratch, 'theories')
    p = os.path.join(th, m['file']); s = open(p).read()
    assert s.count(m['old']) == 1, (m['id'], s.count(m['old']))
    open(p, 'w').write(s.replace(m['old'], m['new']))
    for f in os.listdir(th):
        if f.endswith('.v'):
            q = os.path.join(th, f); st = os.stat(q); s = open(q).read()
            if not f.endswith('Data.v'):
                open(q, 'w').write('Set Default Timeout 150. ' + s)
                if f != m['file']: os.utime(q, (st.st_atime, st.st_mtime))
    admitted, dead = [], set()
    for _ in range(200):
        r = subprocess.run('make -k -j%s 2>&1' % JOBS, shell=True, cwd=scratch, capture_output=True, text=True)
        errs = re.findall(r'^File "\./theories/(\w+\.v)", line (\d+), characters [\d-]+:\n(?:Error|.*Error)', r.stdout, re.M)
        errs = [(f, int(l)) for f, l in errs if f not in dead]
        if not errs: break
        seen = set()
        for f, l in errs:
            if f in seen: continue
            seen.add(f)
            n = admit(os.path.join(th, f), l)
            if n is None: dead.add(f); admitted.append(f + ':' + str(l) + ' (not in a proof)')
            else: admitted.append(f[:-2] + '.' + n)
    failed, okc = [], 0
    for f in sorted(os.listdir(th)):
        if not (f.startswith('Prop') and f.endswith('.v')) or f == 'PropConst.v': continue
        if not os.path.exists(os.path.join(th, f + 'o')):
            failed.append(f + ' (not built)'); continue
        if os.path.getmtime(os.path.join(th, f + 'o')) < t0:
            if subprocess.run('make -q theories/' + f + 'o', shell=True, cwd=scratch, capture_output=True).returncode: failed.append(f + ' (not built)')
            continue      # not affected
        r = subprocess.run(['coqc', '-Q', 'theories', 'Verif', 'theories/' + f], cwd=scratch, capture_output=True, text=True)
        names = re.findall(r'^Print Assumptions (\w+)\.', open(os.path.join(th, f)).read(), re.M)
        out = re.split(r'(?=^(?:Closed under the global context|Axioms:))', r.stdout, flags=re.M)
        out = [o for o in out if o.startswith(('Closed', 'Axioms'))]
        assert len(out) == len(names), (f, len(out), len(names), r.stderr[-300:])
        for n, o in zip(names, out):
            if o.startswith('Axioms'): failed.append(n)
            else: okc += 1
        failed += [a.split('.')[-1] for a in admitted if a.startswith(f[:-2] + '.') and a.split('.')[-1] not in failed]
    return dict(id=m['id'], admitted=admitted, failed=failed, ok=okc, seconds=int(time.time() - t0))

if __name__ == '__main__':
    want = sys.argv[1:]
    for m in MUTANTS:
        if want and m['id'] not in want: continue
        res = run(m)
        hit = [c for c in m['claims'] if any(f.startswith(c + '_') for f in res['failed'])]
        res['missed'] = [c for c in m['claims'] if c not in hit]
        print(json.dumps(res), flush=True)
        with open('/tmp/mut.results', 'a') as o: o.write(json.dumps(res) + '\n')
