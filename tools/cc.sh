#!/bin/bash
# compile single theory files, in order, showing only the first lines of an error
cd /verif/rocq/theories
for f in "$@"; do timeout ${T:-300} coqc -Q . Verif $f.v > /tmp/cc.out 2>&1; rc=$?; head -${L:-40} /tmp/cc.out | cut -c1-300; [ $rc = 0 ] || echo "$f: rc=$rc"; done
