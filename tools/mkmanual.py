#!/usr/bin/env python3
"""Generate rocq/theories/Spec_Manual.v from the reference part of /repo/README.md: one entry per documented message."""
import re, sys
L = open('/repo/README.md').read().split('\n')
cls = sec = None
T = []
for i, l in enumerate(L, 1):
    if l.startswith('### '): cls = l[4:].strip()
    if l.startswith('#### '): sec = l[5:].strip().rstrip(':')
    m = re.match(r'\* \*\*(.*)\*\*\s*$', l)
    if m and i > 119:
        ret = re.match(r'\s*- Returns:\s*(\S+)\s*$', L[i]).group(1).lower()
        parts = re.findall(r'\(([a-z]+)\)|([A-Za-z]+[:?]?)', m.group(1))
        msg = ''.join(b for a, b in parts)
        args = [a for a, b in parts if a]
        T.append((i, sec, cls, msg, args, ret))
out = []
for i, s, c, m, a, r in T:
    out.append('   (%d, %s, B "%s", B "%s", [%s], B "%s")' % (i, {'Constructors': 'Constructor', 'Methods': 'Method'}[s], c, m, '; '.join('B "%s"' % x for x in a), r))
head = open('/verif/tools/manual_head.txt').read()
tail = open('/verif/tools/manual_tail.txt').read()
body = 'Definition manual : list entry :=\n  [' + ';\n'.join(out).lstrip() + ']%nat.\n'
open(sys.argv[1] if len(sys.argv) > 1 else '/verif/rocq/theories/Spec_Manual.v', 'w').write(head + body + tail)
