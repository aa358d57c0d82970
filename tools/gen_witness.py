#!/usr/bin/env python3
"""Generates rocq/theories/P_WitnessData.v: the series of the exact one-step propagator in the eta basis up to
total order 19, for the potential of degree 15.  PROOF DATA only: nothing about it is trusted, its properties are
checked by the kernel (P_Accuracy3.v).
Recursion: a_0 = 1 or 0; 2 (j-i-1) a_{i+1,j} = (D a_i)_{j-2} - (j(j-1) - 2(2i-1)(j-i)) a_{i,j}, D = sum_k v_k h^k L_k(delta/h)."""
from math import comb, lcm
from fractions import Fraction as Fr
from collections import defaultdict
G, N = 19, 15
Dl = [(r, k - r, k, (-1) ** (k + r) * comb(k, r) * comb(k + r, r)) for k in range(1, N + 1) for r in range(k + 1)]
def ext(col):
    A = [{(0, 0, ()): Fr(1)} if col == 0 else {}]
    i = 0
    while True:
        rhs = defaultdict(Fr)
        for (d, h, m), c in A[i].items():
            for (e, f, k, x) in Dl:
                if d + h + e + f + 2 <= G: rhs[(d + e + 2, h + f, tuple(sorted(m + (k,))))] += c * x
            rhs[(d, h, m)] -= (d * (d - 1) - (2 * (2 * i - 1) * (d - i) if i >= 1 else 0)) * c
        n = {}
        for (j, h, m), c in rhs.items():
            if c == 0: continue
            assert j != i + 1
            n[(j, h, m)] = c / (2 * (j - i - 1))
        if i == 0 and col == 1: n[(1, 0, ())] = Fr(1)
        if not n and i > 0: return A
        A.append(n); i += 1
A = [ext(0), ext(1)]
D = 1
for col in A:
    for a in col:
        for c in a.values(): D = lcm(D, c.denominator)
o = ['''(** GENERATED by tools/gen_witness.py, do not edit.  Proof data: coefficients (scaled by DW) of the series of the
    exact propagator in the eta functions up to total order 19; its properties are checked in P_Accuracy3. *)
From Coq Require Import ZArith List.
From Verif Require Import P_Terms.
Import ListNotations.
Definition DW : Z := %d.''' % D]
for q, col in enumerate(A):
    for i, a in enumerate(col):
        o.append('Definition wit%d_%d : list term := [%s].' % (q, i, ';\n '.join(
            'Te %s %d %d [%s]' % (('(%d)' if c < 0 else '%d') % int(c * D), d, h, ';'.join(map(str, m)))
            for (d, h, m), c in sorted(a.items()))))
    o.append('Definition wit%d : list (list term) := [%s].' % (q, '; '.join('wit%d_%d' % (q, i) for i in range(len(col)))))
open('/verif/rocq/theories/P_WitnessData.v', 'w').write('\n'.join(o) + '\n')
print(D, [len(c) for c in A])
