#!/bin/bash
# rebuild everything from the committed sources
cd /verif/rocq && coq_makefile -f _CoqProject -o Makefile && make -j4 2>&1 | grep -v "^COQ\|Closed under\|^Axioms\|^make" | tail -${1:-15}
