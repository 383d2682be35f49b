#!/usr/bin/env python3
"""Transcribe the Unicode tables of /repo into Coq data files.

Reads the Go sources as text and writes one Gallina list per Go table, entry
for entry and in order.  Run: python3 tools/gen_tables.py  (from /verif).
The generated .v files are committed; this script is not part of the build.
"""
import re, os
R = '/repo/runewidth'
OUT = os.path.join(os.path.dirname(__file__), '..', 'rocq', 'theories')

def find_line(path, pat):
    for i, l in enumerate(open(path, encoding='utf-8'), 1):
        if re.search(pat, l):
            return i

def emit_table(path, name, cname):
    src = open(path, encoding='utf-8').read()
    m = re.search(r'var %s = table\{(.*?)\n\}' % name, src, re.S)
    rows = re.findall(r'\{0x([0-9A-Fa-f]+), 0x([0-9A-Fa-f]+)\}', m[1])
    assert len(rows) == m[1].count('{')
    a = src[:m.start()].count('\n') + 1
    b = src[:m.end()].count('\n') + 1
    s = '(** %s:%d-%d, variable [%s]. *)\n' % (path.replace('/repo/', ''), a, b, name)
    s += 'Definition %s : list (Z * Z) := [\n' % cname
    s += ';\n'.join('  (0x%s, 0x%s)' % r for r in rows)
    return s + '\n].\n\n'

def emit_props(path, name, cname):
    src = open(path, encoding='utf-8').read()
    m = re.search(r'var %s = \[\]\[3\]int\{(.*?)\n\}' % name, src, re.S)
    body = re.sub(r'//.*', '', m[1])
    rows = re.findall(r'\{0x([0-9A-Fa-f]+), 0x([0-9A-Fa-f]+), (\w+)\}', body)
    assert len(rows) == body.count('{')
    a = src[:m.start()].count('\n') + 1
    b = src[:m.end()].count('\n') + 1
    s = '(** %s:%d-%d, variable [%s]. *)\n' % (path.replace('/repo/', ''), a, b, name)
    s += 'Definition %s : list (Z * Z * Z) := [\n' % cname
    s += ';\n'.join('  (0x%s, 0x%s, %s)' % r for r in rows)
    return s + '\n].\n\n'

HEAD = '''(** * %s

    GENERATED by tools/gen_tables.py from the Go sources in /repo; do not
    edit.  Entries are transcribed in source order. *)
'''

# Property constants.  properties.go:5-89 is one const block with iota:
# prXX = 0 is the spec at index 0; prAny = iota is the spec at index 1, so
# prAny is 1 (the comment there says it must be 0); then one more per line.
src = open(R + '/uniseg/properties.go', encoding='utf-8').read()
m = re.search(r'const \((.*?)\n\)', src, re.S)
names = []
for l in m[1].split('\n'):
    l = re.sub(r'//.*', '', l).strip()
    if l:
        names.append(l.split()[0])
assert names[:3] == ['prXX', 'prAny', 'prPrepend']
o = HEAD % 'PropConst: the property constants of uniseg'
o += 'From Coq Require Import ZArith.\nLocal Open Scope Z_scope.\n\n'
o += '(** runewidth/uniseg/properties.go:5-90, one const block numbered by iota.\n'
o += '    [prXX = 0] is the ConstSpec at index 0 and [prAny = iota] the one at\n'
o += '    index 1, so [prAny] is 1, not 0 as the comment in the source says. *)\n'
for i, n in enumerate(names):
    o += 'Definition %s : Z := %d.\n' % (n, i)
open(OUT + '/PropConst.v', 'w').write(o)

o = HEAD % 'RuneWidthData: the interval tables of package runewidth'
o += 'From Coq Require Import List ZArith.\nImport ListNotations.\nLocal Open Scope Z_scope.\n\n'
for n in ['private', 'nonprint']:
    src = open(R + '/runewidth.go').read()
    o += emit_table(R + '/runewidth.go', n, 'tbl_' + n)
for n in ['combining', 'doublewidth', 'ambiguous', 'narrow', 'neutral', 'emoji']:
    o += emit_table(R + '/runewidth_table.go', n, 'tbl_' + n)
open(OUT + '/RuneWidthData.v', 'w').write(o)

for f, v, c in [('graphemeproperties', 'graphemeCodePoints', 'GraphemeData'),
                ('eastasianwidth', 'eastAsianWidth', 'EastAsianData'),
                ('emojipresentation', 'emojiPresentation', 'EmojiData')]:
    o = HEAD % ('%s: the table [%s] of package uniseg' % (c, v))
    o += 'From Coq Require Import List ZArith.\nFrom Verif Require Import PropConst.\n'
    o += 'Import ListNotations.\nLocal Open Scope Z_scope.\n\n'
    o += emit_props(R + '/uniseg/%s.go' % f, v, v)
    open(OUT + '/%s.v' % c, 'w').write(o)
