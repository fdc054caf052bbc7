#!/usr/bin/env python3
"""Append the table of properties to DESIGN.md from properties.jsonl, claims.txt and tools/areas.json."""
import json, os, re
root = os.path.dirname(os.path.dirname(os.path.abspath(__file__)))
areas = json.load(open(os.path.join(root, 'tools', 'areas.json')))
claims = {}
for line in open(os.path.join(root, 'tools', 'claims.txt')):
    parts = line.rstrip('\n').split('|')
    if len(parts) >= 4:
        claims[parts[0]] = (parts[1], parts[2].split(','), '|'.join(parts[3:]))
refuted = {}
for f in sorted(os.listdir(os.path.join(root, 'rocq', 'theories'))):
    if f.endswith('.v'):
        for name in re.findall(r'^Theorem (C\d\d_\w*_refuted)\b', open(os.path.join(root, 'rocq', 'theories', f)).read(), re.M):
            refuted.setdefault(name[:3], []).append(name)
path = os.path.join(root, 'DESIGN.md')
text = open(path).read().split('## Per property')[0]
out = [text, '## Per property\n\n', 'How each is proved, its status, and the findings beside it.  (Generated by `tools/mkdesign.py`.)\n\n']
for line in open(os.path.join(root, 'properties.jsonl')):
    p = json.loads(line)
    i = p['id']
    st, thms, note = claims[i]
    a = areas.get(i, {})
    out.append('* **%s %s** (%s). Modelled: %s.' % (i, p['title'], st, a.get('model', '')))
    if a.get('proof'):
        out.append(' Proof: %s.' % a['proof'])
    if note:
        out.append(' ' + note.strip())
    if refuted.get(i):
        out.append(' Findings: %s.' % ', '.join('`%s`' % n for n in refuted[i]))
    out.append('\n')
open(path, 'w').write(''.join(out))
