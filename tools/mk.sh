#!/bin/sh
# build and show only errors
cd /verif/rocq && coq_makefile -f _CoqProject -o Makefile && timeout ${1:-1200} make -k -j4 > /tmp/mk.log 2>&1
if make -n 2>/dev/null | grep -q "COQC"; then echo "BUILD INCOMPLETE"; tail -3 /tmp/mk.log; fi
awk '/^File/{buf=$0; getline; if ($0 ~ /^Warning/) {next} else {print buf; print; c=25; next}} /^Axioms:|^Closed under/{c=0} /^make/{c=0} c-->0{print}' /tmp/mk.log
