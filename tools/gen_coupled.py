#!/usr/bin/env python3
"""Generates rocq/theories/M_CoupledData.v from /repo/matslise/matscs/matscs_formulas.cpp:158-end.
Purely syntactic: every block is a sum of (optional h power) * (sum of decimal literal * alias); it is printed as
the list of its rows (power of h, terms).  The script refuses anything else, and checks each alias
(v1_v2 = v1 * v2) against its name, the powers of h, and that every block is assigned exactly once."""
import re
src = open('/repo/matslise/matscs/matscs_formulas.cpp').read()
for m in re.finditer(r'const MatrixXs (v[\dv_]+) = ([v\d_]+) \* ([v\d_]+);', src):
    assert re.findall(r'\d', m.group(1)) == re.findall(r'\d', m.group(2)) + re.findall(r'\d', m.group(3)), m.group(0)
for m in re.finditer(r'const MatrixXs &v(\d) = vs\[(\d)\];', src): assert m.group(1) == m.group(2)
for m in re.finditer(r'const Scalar h(\d+) = h\*h(\d+);', src): assert int(m.group(1)) == int(m.group(2)) + 1
def lit(s):              # decimal literal -> (integer, number of decimals)
    m = re.fullmatch(r'(-?)(\d+)(?:\.(\d+))?(?:e(-?\d+))?', s); assert m, s
    sg, a, b, e = m.groups(); b = b or ''; e = int(e or 0)
    n = int(a + b); k = len(b) - e; assert k >= 0
    while k > 0 and n % 10 == 0: n //= 10; k -= 1
    return (-n if sg else n), k
def row(t):
    out = []
    if t == 'MatrixXs::Identity(n, n)': return [(1, 0, [])]
    for term in re.split(r'(?<!e)\+', t):
        m = re.fullmatch(r'(-?[\d.]+(?:e-?\d+)?)\*(v\d(?:_v\d)*)', term.strip()); assert m, term
        n, k = lit(m.group(1)); out.append((n, k, [int(x) for x in re.findall(r'v(\d)', m.group(2))]))
    return out
def entry(t):
    if t == 'MatrixXs::Zero(n,n)': return []
    if t == 'MatrixXs::Identity(n, n)': return [(0, row(t))]
    res = []
    for p in re.split(r' \+ (?=h\d+ \*)', t):
        m = re.fullmatch(r'h(\d+) \* \((.*)\)', p)
        if m: res.append((int(m.group(1)), row(m.group(2))))
        else:
            if p[0] == '(': assert p[-1] == ')', p; p = p[1:-1]
            res.append((0, row(p)))
    return res
blk = {'0, 0': 0, '0, n': 1, 'n, 0': 2, 'n, n': 3}
TD = {}; TH = {}
body = src[src.index('tDelta(0, 0).resize'):]
body = body[:body.index('\n}')]
for line in body.split('\n'):
    line = line.strip()
    if not line or re.fullmatch(r'(tDelta\(\d+, \d+\)|tH\[\d+\])\.resize\(2\*n, 2\*n\);', line): continue
    m = re.fullmatch(r'(?:tDelta\((\d+), (\d+)\)|tH\[(\d+)\]) = MatrixXs::Zero\(2\*n, 2\*n\);', line)
    if m:
        for q in range(4):
            key, tab = (((int(m.group(1)), int(m.group(2)), q), TD) if m.group(1) else ((int(m.group(3)), q), TH))
            assert key not in tab; tab[key] = []
        continue
    m = re.fullmatch(r'(?:tDelta\((\d+), (\d+)\)|tH\[(\d+)\])\.block\((\w, \w), n, n\) (\+?=) (.*);', line); assert m, line
    i, j, k, q, op, t = m.groups()
    key, tab = (((int(i), int(j), blk[q]), TD) if i else ((int(k), blk[q]), TH))
    if op == '=': assert key not in tab; tab[key] = entry(t)
    else: tab[key] = tab[key] + entry(t)
assert sorted(TD) == [(i, j, q) for i in range(5) for j in range(10) for q in range(4)]
assert sorted(TH) == [(i, q) for i in range(6) for q in range(4)]
z = lambda n: str(n) if n >= 0 else '(%d)' % n
pt = lambda t: 'De %s %d [%s]' % (z(t[0]), t[1], '; '.join(map(str, t[2])))
pe = lambda e: '[' + '; '.join('(%d, [%s])' % (p, '; '.join(map(pt, r))) for p, r in e) + ']'
o = ['''(** GENERATED by tools/gen_coupled.py from /repo/matslise/matscs/matscs_formulas.cpp:158-end, do not edit.
    Each n x n block is the list of its rows (p, terms) of the sum h^p * (terms); a term (m, e, word) is the decimal
    literal m * 10^-e times the matrix product of the v's of the word.  Block order: (0,0), (0,n), (n,0), (n,n). *)
From Coq Require Import ZArith List.
Import ListNotations.
Inductive wterm := De (m : Z) (e : nat) (word : list nat).
Definition wentry : Type := list (nat * list wterm).
''']
for i in range(5):
    o.append('(** matscs_formulas.cpp: tDelta(%d, 0..9) *)\nDefinition wdelta_row%d : list (list wentry) := [\n%s].' % (i, i,
      ';\n'.join(' [' + ';\n  '.join(pe(TD[(i, j, q)]) for q in range(4)) + ']' for j in range(10))))
for i in range(6):
    o.append('(** matscs_formulas.cpp: tH[%d] *)\nDefinition wh_row%d : list wentry := [%s].' % (i, i, ';\n  '.join(pe(TH[(i, q)]) for q in range(4))))
o.append('Definition wdelta_table : list (list (list wentry)) := [wdelta_row0; wdelta_row1; wdelta_row2; wdelta_row3; wdelta_row4].')
o.append('Definition wh_table : list (list wentry) := [wh_row0; wh_row1; wh_row2; wh_row3; wh_row4; wh_row5].')
open('/verif/rocq/theories/M_CoupledData.v', 'w').write('\n'.join(o) + '\n')
