#!/usr/bin/env python3
"""Compare the model with the numbers in /repo/runewidth/*_test.go.

The tests of package runewidth state SHA-256 sums and totals over all code points: of every table
and of RuneWidth and StringWidth under both settings.  This evaluates the same functions of the
model in Coq for every code point and compares.  It is a test of the model, not a proof.
"""
import hashlib, os, re, subprocess, sys, tempfile
root = os.path.dirname(os.path.dirname(os.path.abspath(__file__)))
test = open('/repo/runewidth/runewidth_test.go').read()
bench = open('/repo/runewidth/benchmark_test.go').read()
tables = re.findall(r'\{(\w+), "\w+", (\d+), "([0-9a-f]{64})"\}', test)
sums = re.findall(r'\{"ea-(no|yes)", (?:false|true), "([0-9a-f]{64})"\}', test)[:2]
totals = re.findall(r'bench(RuneWidth|String1Width)\(b, (false|true), 0, (utf8.MaxRune\+1|0x300), (\d+)\)', bench)
src = '''From Verif Require Import GoBase Utf8 RuneWidthData Uniseg Runewidth ConditionSpec Locale.
Local Open Scope Z_scope.
Definition runs (from : Z) (f : Z -> Z) : list (Z * Z) :=
  snd (N.iter 0x11000 (fun st => let '(r, acc) := st in
     let v := f r in
     (r + 1, match acc with (_, v') :: _ => if v =? v' then acc else (r, v) :: acc | [] => [(r, v)] end)) (from, [])).
Definition b2z (b : bool) := if b then 1 else 0.
(* string(r): U+FFFD for surrogates *)
Definition string_of (r : Z) : str := encode_valid (if inb 0xD800 0xDFFF r then 0xFFFD else r).
Set Printing Width 1000000. Set Printing Depth 10000000.
'''
want = []
for t, n, sha in tables:
    want.append(('table ' + t, sha, int(n), 'fun r => b2z (inTable r tbl_%s)' % t))
for (ea, sha) in sums:
    b = 'true' if ea == 'yes' else 'false'
    want.append(('RuneWidth ' + b, sha, None, 'RuneWidth (plainCondition %s true)' % b))
for b in ('false', 'true'):
    want.append(('StringWidth ' + b, None, None, 'fun r => StringWidth (plainCondition %s true) (string_of r)' % b))
if sys.argv[1:]:  # only those named
    want = [w for w in want if w[0] in sys.argv[1:]]
def evaluate(f):
    runs = []
    for k in range(16):  # a sixteenth of the code points at a time, each in its own process
        with tempfile.TemporaryDirectory() as d:
            open(d + '/Sums.v', 'w').write(src + 'Eval vm_compute in (runs %d (%s)).\n' % (k * 0x11000, f))
            out = subprocess.run(['coqc', '-Q', root + '/rocq/theories', 'Verif', d + '/Sums.v'], stdout=subprocess.PIPE, text=True, check=True).stdout
        runs += [(int(a), int(b)) for a, b in re.findall(r'\((\d+), (\d+)\)', re.search(r'= \[(.*)\]', out).group(1))][::-1]
    return runs
bad = 0; values = {}
for name, sha, n, f in want:
    runs = evaluate(f)
    buf = bytearray()
    for i, (a, v) in enumerate(runs):
        buf += bytes([v]) * ((runs[i + 1][0] if i + 1 < len(runs) else 0x110000) - a)
    values[name] = buf
    got = hashlib.sha256(buf).hexdigest()
    ok = len(buf) == 0x110000 and (sha is None or got == sha) and (n is None or sum(buf) == n)
    bad += not ok
    print('ok  ' if ok else 'DIFF', name, len(runs), 'runs', flush=True)
for kind, b, stop, n in totals:
    name = ('RuneWidth ' if kind == 'RuneWidth' else 'StringWidth ') + b
    if name not in values: continue
    stop = 0x300 if stop == '0x300' else 0x110000
    got = sum(values[name][:stop])
    ok = got == int(n); bad += not ok
    print('ok  ' if ok else 'DIFF', 'total', kind, b, hex(stop), got, n)
sys.exit(bad)
