#!/bin/sh
# Build the development in place (run from anywhere).
cd "$(dirname "$0")/../rocq" && coq_makefile -f _CoqProject -o Makefile >/dev/null && make -j4 2>&1 | grep -v "^COQ\|^make\|CLEAN" 
