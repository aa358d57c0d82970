#!/usr/bin/env python3
"""Generates rocq/theories/M_TableData.v from /repo/matslise/matslise/matslise_formulas.cpp:161-323.
Purely syntactic: every C++ entry is a nested Horner form in h, r0 + h*(r1 + h*(...)), whose rows are
sums of (Scalar(n)/Scalar(d))*monomial; it is printed as the list of its rows.  The script refuses
anything else, and checks each alias (v1_v2 = v1 * v2, lines 23-160) against its name."""
import re, sys
src = open('/repo/matslise/matslise/matslise_formulas.cpp').read()
alias = {'v%d' % i: [i] for i in range(1, 16)}
for m in re.finditer(r'Scalar (v[0-9_v]+) = (\w+) \* (\w+);', src):
    alias[m.group(1)] = sorted(alias[m.group(2)] + alias[m.group(3)])
    assert sorted(int(x[1:]) for x in m.group(1).split('_')) == alias[m.group(1)]
tok = re.compile(r'\s*(Scalar\((-?\d+)ll\)|v[0-9_v]*\d|h|[()+*/]|0)')
class P:
    def __init__(s, t):
        s.t = t; s.i = 0
    def peek(s):
        m = tok.match(s.t, s.i); return m.group(1) if m else None
    def eat(s, x=None):
        m = tok.match(s.t, s.i); assert m, s.t[s.i:s.i+40]
        s.i = m.end()
        if x: assert m.group(1) == x, (m.group(1), x, s.t[s.i-30:s.i+30])
        return m
    def coef(s):            # Scalar(n) or (Scalar(n)/Scalar(d))
        if s.peek() == '(':
            s.eat(); n = int(s.eat().group(2)); s.eat('/'); d = int(s.eat().group(2)); s.eat(')')
            return n, d
        return int(s.eat().group(2)), 1
    def row(s):             # sum of coef [* monomial]
        out = []
        while True:
            n, d = s.coef(); m = []
            if s.peek() == '*':
                s.eat(); m = alias[s.eat().group(1)]
            out.append((n, d, m))
            if s.peek() == '+':
                k = s.i; s.eat()
                if s.peek() == 'h': s.i = k; return out
            else: return out
    def entry(s):           # nested Horner form -> rows
        if s.peek() == '0': s.eat(); return []
        if s.peek() == 'h':
            s.eat(); s.eat('*'); s.eat('('); r = s.entry(); s.eat(')'); return [[]] + r
        if s.peek() == '(':
            # '(' entry ')' [+ h * ( entry )]  or a coefficient
            k = s.i
            try:
                r = s.row()
            except (AssertionError, TypeError):
                s.i = k; s.eat('('); r = s.entry(); s.eat(')')
                if s.peek() == '+':
                    assert len(r) == 1, r
                    s.eat(); s.eat('h'); s.eat('*'); s.eat('('); q = s.entry(); s.eat(')')
                    return r + q
                return r
            return [r]
        return [s.row()]
def splitargs(t):
    out = []; d = 0; cur = ''
    for c in t:
        if c == '(': d += 1
        if c == ')': d -= 1
        if c == ',' and d == 0: out.append(cur); cur = ''
        else: cur += c
    out.append(cur); return out
def parse(x):
    p = P(x.strip()); r = p.entry(); assert p.i == len(p.t), p.t[p.i:]
    return r
tD = {}; tH = {}
for m in re.finditer(r'tDelta\((\d+), (\d+)\) << (.*?);', src):
    a = [parse(x) for x in splitargs(m.group(3))]; assert len(a) == 4
    k = (int(m.group(1)), int(m.group(2))); assert k not in tD; tD[k] = a
for m in re.finditer(r'tH\[(\d+)\] << (.*?);', src):
    a = [parse(x) for x in splitargs(m.group(2))]; assert len(a) == 4
    k = int(m.group(1)); assert k not in tH; tH[k] = a
assert sorted(tD) == [(i, j) for i in range(9) for j in range(17)] and sorted(tH) == list(range(10))
def pe(e):
    return '[' + '; '.join('[' + '; '.join('Mo %s %d [%s]' % (('(%d)' % n if n < 0 else n), d, '; '.join(map(str, m))) for n, d, m in r) + ']' for r in e) + ']'
def main():
    o = []
    o.append('''(** GENERATED by tools/gen_tables.py from /repo/matslise/matslise/matslise_formulas.cpp:161-323, do not edit.
    Each 2x2 entry is the list of the rows r0, r1, ... of the nested form r0 + h*(r1 + h*(...)); a row is a
    list of terms (numerator, denominator, indices of the v's), in the order of the source.  Entry order:
    (0,0), (0,1), (1,0), (1,1), as in Eigen's comma initialiser. *)
From Coq Require Import ZArith List.
Import ListNotations.
(** (Scalar(num)/Scalar(den)) * product of the v's *)
Inductive tterm := Mo (num : Z) (den : positive) (vars : list nat).
Definition hentry : Type := list (list tterm).
''')
    for i in range(9):
        o.append('(** matslise_formulas.cpp: tDelta(%d, 0..16) *)\nDefinition tdelta_row%d : list (list hentry) := [' % (i, i))
        o.append(';\n'.join(' [' + ';\n  '.join(pe(e) for e in tD[i, j]) + ']' for j in range(17)) + '].')
    o.append('Definition tdelta_table : list (list (list hentry)) := [%s].' % '; '.join('tdelta_row%d' % i for i in range(9)))
    o.append('(** matslise_formulas.cpp: tH[0..9] *)\nDefinition th_table : list (list hentry) := [')
    o.append(';\n'.join(' [' + ';\n  '.join(pe(e) for e in tH[i]) + ']' for i in range(10)) + '].')
    open('/verif/rocq/theories/M_TableData.v', 'w').write('\n'.join(o) + '\n')
if __name__ == '__main__': main()
