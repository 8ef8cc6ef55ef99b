#!/bin/sh
# regenerate the property files and _CoqProject, then build
cd "$(dirname "$0")/.." && python3 tools/genprops.py && cd rocq && { echo "-Q theories Verif"; ls theories/*.v; } > _CoqProject && coq_makefile -f _CoqProject -o Makefile >/dev/null && make -j4 2>&1 | grep -v "^COQC\|^Closed under\|^make\|^COQDEP\|^$"; python3 ../tools/mkmanifest.py
python3 ../tools/mkdesign.py
