#!/bin/sh
# Regenerate properties.jsonl, claims.json, MANIFEST.json and the file list in rocq/_CoqProject.
set -e
cd "$(dirname "$0")"
python3 gen_properties.py
python3 claims_src.py
python3 gen_manifest.py
cd ../rocq
{ echo "-Q theories Verif"; ls theories/*.v; } > _CoqProject
