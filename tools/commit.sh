#!/bin/sh
# regenerate derived files, build, commit, check
cd /verif && python3 tools/gen_properties.py && python3 tools/gen_manifest.py && cd rocq && coq_makefile -f _CoqProject -o Makefile && make -j4 2>&1 | grep -v '^COQ\|Closed\|^make\|CLEAN' ; cd .. && git add -A && git commit -qm "$1" && vcheck | grep -o '"manifest_status.*'
