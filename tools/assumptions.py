#!/usr/bin/env python3
"""Regenerate the 'Print Assumptions per theorem' section of DESIGN.md.  Needs a finished build in rocq/."""
import json, re, subprocess, os
R = '/verif/rocq/theories'
m = json.load(open('/verif/MANIFEST.json'))
ths = [t for c in m['claims'] for t in c['theorems']]
mods = [l.strip()[len('theories/'):-2] for l in open('/verif/rocq/_CoqProject') if l.startswith('theories/Props')]
open('/tmp/pa.v', 'w').write("From Verif Require Import %s.\n" % ' '.join(mods) + ''.join('Print Assumptions %s.\n' % t for t in ths))
out = subprocess.run(['coqc', '-Q', '.', 'Verif', '/tmp/pa.v'], cwd=R, capture_output=True, text=True).stdout
blocks, cur = [], None
for l in out.splitlines():
    if l.startswith('Closed under'): blocks.append(()); cur = None
    elif l.startswith('Axioms:'): cur = []; blocks.append(cur)
    elif cur is not None and re.match(r'[A-Za-z]', l): cur.append(re.split(r'[ :]', l)[0])
assert len(blocks) == len(ths), (len(blocks), len(ths))
groups = {}
for t, b in zip(ths, blocks): groups.setdefault(tuple(sorted(b)), []).append(t)
txt = []
for k, v in sorted(groups.items()):
    txt.append(('No axioms ("Closed under the global context")' if not k else 'Axioms ' + ', '.join('`%s`' % a for a in k)) + ' — %d theorems:\n' % len(v))
    txt.append(', '.join('`%s`' % t for t in v) + '\n')
d = open('/verif/DESIGN.md').read()
i = d.index('<!-- assumptions -->'); j = d.index('<!-- end assumptions -->')
open('/verif/DESIGN.md', 'w').write(d[:i] + '<!-- assumptions -->\n' + '\n'.join(txt) + d[j:])
print({k: len(v) for k, v in groups.items()})
