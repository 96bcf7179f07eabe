#!/bin/bash
# pa_add.sh Props_X : append assumptions of its Cnn theorems to tools/assumptions.txt
cd /verif/rocq/theories
for m in "$@"; do
(echo "From Verif Require $m."; grep -oE "^(Theorem|Corollary|Lemma) C[0-9]+_\w+" $m.v | awk '{print $2}' | while read t; do c=${t%%_*}; echo "Goal True. idtac \"@@ $c $t\". Abort."; echo "Print Assumptions $m.$t."; done) > /tmp/pa_add.v
coqc -Q . Verif /tmp/pa_add.v >> /verif/tools/assumptions.txt
done
