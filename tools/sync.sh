#!/bin/bash
# regenerate _CoqProject, properties and manifest
cd /verif/rocq && (echo "-Q theories Verif"; for f in theories/*.v; do echo $f; done) > _CoqProject
cd /verif && python3 tools/props1.py > properties.jsonl && python3 tools/manifest.py
