#!/bin/sh
# list every theory in _CoqProject (dependency order is computed by make), rebuild, refresh the manifest
cd "$(dirname "$0")/../rocq" || exit 1
{ echo "-Q theories Verif"; echo; ls theories/*.v; } > _CoqProject
coq_makefile -f _CoqProject -o Makefile >/dev/null && make -j4 2>&1 | grep -v "^COQ\|Closed under\|^make" 
python3 ../tools/mkmanifest.py | grep -v ^missing
python3 ../tools/design.py
