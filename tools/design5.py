#!/usr/bin/env python3
"""Writes section 5 of DESIGN.md (axioms per theorem) from the output of Print Assumptions.
usage: design5.py PA.out   (PA.out: '@@ T_File.theorem' lines followed by what Print Assumptions printed)"""
import re,sys,collections
s=open(sys.argv[1]).read()
g=collections.OrderedDict()
for blk in s.split('@@ ')[1:]:
    name=blk.split('\n')[0].split('.')[1]
    ax=frozenset(re.findall(r'^([A-Za-z_]\w*(?:\.\w+)+)\b',blk.split('\n',1)[1],re.M))
    g.setdefault(ax,[]).append(name)
nick={'ClassicalDedekindReals.sig_forall_dec':'R1','ClassicalDedekindReals.sig_not_dec':'R2','FunctionalExtensionality.functional_extensionality_dep':'F','Classical_Prop.classic':'C','ClassicalEpsilon.constructive_indefinite_description':'D'}
prim=lambda a: a.startswith('PrimFloat.') or a.startswith('PrimInt63.')
out=['## 5. Axioms per theorem','',
 'Printed by `Print Assumptions`, all from the standard library:','',
 '* R1 = `ClassicalDedekindReals.sig_forall_dec`, R2 = `ClassicalDedekindReals.sig_not_dec`, F = `FunctionalExtensionality.functional_extensionality_dep` (the three axioms under the standard reals), C = `Classical_Prop.classic` (excluded middle, used by Coquelicot and Flocq/Interval), D = `ClassicalEpsilon.constructive_indefinite_description` (choice, for the mathcomp field structure of the reals);',
 '* P = primitive floats and 63-bit integers: the types and operations `PrimFloat.*`, `PrimInt63.*` are listed by `Print Assumptions` although they are implemented by the kernel; S = the specification axioms of `FloatAxioms` (named per line).','',
 'The table is generated by `tools/design5.py`.','']
for ax,ns in sorted(g.items(),key=lambda p:(len(p[0]),-len(p[1]))):
    t=[nick[a] for a in nick if a in ax]
    if any(map(prim,ax)): t.append('P')
    sp=sorted(a for a in ax if a.startswith('FloatAxioms.'))
    if sp: t.append('S ('+', '.join(a.split('.')[1] for a in sp)+')')
    rest=[a for a in ax if a not in nick and not prim(a) and a not in sp]
    assert not rest,rest
    out.append('* **%s** (%d): %s'%(', '.join(t) or 'closed under the global context, no axiom',len(ns),', '.join(sorted(ns))))
d=open('/verif/DESIGN.md').read().split('## 5. Axioms')[0].rstrip()
open('/verif/DESIGN.md','w').write(d+'\n\n'+'\n'.join(out)+'\n')
