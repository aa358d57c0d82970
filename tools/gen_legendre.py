#!/usr/bin/env python3
"""Translate the decimal tables of /repo/matslise/util/legendre_data.h (double) and the
integer table of /repo/matslise/util/legendre.h:14-35 to Coq (M_LegendreData.v)."""
import re
from fractions import Fraction
src=open('/repo/matslise/util/legendre_data.h').read().split('\n')
def lit(s):
    s=s.strip().rstrip('L')
    m=re.match(r'^(-?)(\d+)\.(\d*)(?:e([-+]?\d+))?$',s)
    if not m: raise Exception(s)
    d=m.group(2)+m.group(3); e=len(m.group(3))-int(m.group(4) or 0)
    num=int(m.group(1)+d)
    return num,e
def coq(s):
    n,e=lit(s)
    assert e>=0
    if n==0: return '0'
    while e>0 and n%10==0: n//=10; e-=1
    return f'({n}#{10**e})'
out=["(** GENERATED by tools/gen_legendre.py from /repo/matslise/util/legendre_data.h (the <double, n>",
"    specialisations; each definition cites its line) and /repo/matslise/util/legendre.h:16-34.",
"    The decimal literals are kept exactly (as rationals); their rounding to binary64 is not modelled. *)",
"From Coq Require Import QArith List.","Import ListNotations.","Open Scope Q_scope.",""]
for ln,l in enumerate(src,1):
    m=re.match(r'\s*template<> inline const Eigen::Array<double, (\d+), (\d+)> (nodes|weights)<double, (\d+)> = \(.*?<< (.*)\)\.finished\(\);',l)
    if not m: continue
    r,c,kind,n,body=m.groups()
    vals=[coq(x) for x in body.split(',')]
    n=int(n)
    assert len(vals)==(n if kind=='nodes' else n*n)
    out.append(f"(** util/legendre_data.h:{ln} *)")
    if kind=='nodes':
        out.append(f"Definition nodes{n} : list Q := [{'; '.join(vals)}].")
    else:
        rows=['['+'; '.join(vals[i*n:(i+1)*n])+']' for i in range(n)]
        out.append(f"Definition weights{n} : list (list Q) := [{(';'+chr(10)+'  ').join(rows)}].")
h=open('/repo/matslise/util/legendre.h').read().split('\n')
body=' '.join(h[17:34]).replace('<<','').replace('LL','')
body=body.split(').finished')[0]
vals=[int(x) for x in body.split(',')]
assert len(vals)==256,len(vals)
rows=['['+'; '.join(f'({v})' if v<0 else str(v) for v in vals[i*16:(i+1)*16])+']' for i in range(16)]
out.append("(** util/legendre.h:15-35: row i holds the coefficients of the i-th shifted Legendre polynomial, constant first. *)")
out.append("Definition shifted_legendre : list (list Z) := ("+"["+(';'+chr(10)+'  ').join(rows)+"])%Z.")
out.append("""
(** nodes<Scalar, k> and weights<Scalar, k> as functions of k (util/legendre.h:11-14). *)
Definition nodes (k : nat) : list Q :=
  match k with 2%nat => nodes2 | 4%nat => nodes4 | 6%nat => nodes6 | 8%nat => nodes8 | 10%nat => nodes10
  | 12%nat => nodes12 | 14%nat => nodes14 | 16%nat => nodes16 | 18%nat => nodes18 | _ => [] end.
Definition weights (k : nat) : list (list Q) :=
  match k with 2%nat => weights2 | 4%nat => weights4 | 6%nat => weights6 | 8%nat => weights8 | 10%nat => weights10
  | 12%nat => weights12 | 14%nat => weights14 | 16%nat => weights16 | 18%nat => weights18 | _ => [] end.""")
open('/verif/rocq/theories/M_LegendreData.v','w').write('\n'.join(out)+'\n')
