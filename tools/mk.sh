#!/bin/bash
# build, hiding the Print Assumptions noise
cd /verif/rocq && coq_makefile -f _CoqProject -o Makefile >/dev/null && timeout ${1:-900} make -j4 2>&1 | grep -v "^Axioms:\|ClassicalDed\|^    forall \|^    (forall\|{n : nat\|FunctionalExt\|Classical_Prop\|^  : forall\|Closed under\|^COQC\|^COQDEP\|^[A-Za-z0-9.]* : \(float\|PrimInt63\|Set\)\|^of_uint63\|canonical\|FNum of\|^of_uint63|^with RNum\|Base/Num.v" | tail -${2:-30}
