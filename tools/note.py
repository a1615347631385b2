#!/usr/bin/env python3
"""note.py Cxx status note: set an entry of manifest_notes.json and rebuild MANIFEST.json"""
import json, sys, os, subprocess
root = os.path.dirname(os.path.dirname(os.path.abspath(__file__)))
p = root + '/tools/manifest_notes.json'
d = json.load(open(p)); d[sys.argv[1]] = [sys.argv[2], sys.argv[3]]
json.dump(dict(sorted(d.items())), open(p, 'w'), indent=0)
subprocess.run([sys.executable, root + '/tools/mkmanifest.py'])
