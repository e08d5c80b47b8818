#!/bin/sh
# Regenerate the manifest and the file list, then build.
cd "$(dirname "$0")/.." && python3 tools/gen_manifest.py && cd rocq &&
coq_makefile -f _CoqProject -o Makefile && timeout "${1:-800}" make -j4 2>&1 | grep -A12 "Error\|\*\*\*"
