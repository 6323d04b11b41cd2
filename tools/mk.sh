#!/bin/sh
# build helper
cd /verif/rocq && coq_makefile -f _CoqProject -o Makefile >/dev/null && make -j4 "$@" 2>&1 | grep -v "^COQC\|^COQDEP\|^make\|CoqMakefile" | head -${LINES_MAX:-80}
