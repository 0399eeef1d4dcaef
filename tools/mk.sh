#!/bin/sh
# regenerate _CoqProject's file list and build
cd "$(dirname "$0")/../rocq" || exit 1
{ echo "-Q theories Verif"; ls theories/*.v; } > _CoqProject
coq_makefile -f _CoqProject -o Makefile && make -j4
