#!/bin/sh
# rebuild everything listed in _CoqProject
cd /verif/rocq && coq_makefile -f _CoqProject -o Makefile >/dev/null && ulimit -v 8000000 && { timeout ${2:-400} make -j4 2>&1; [ $? = 124 ] && echo "Error: timeout"; } | grep -v '^COQC\|^COQDEP\|^make\|CLEAN\|^Closed' | head -${1:-60}
