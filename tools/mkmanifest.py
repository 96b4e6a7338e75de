#!/usr/bin/env python3
"""Write MANIFEST.json from the theorem names found in rocq/theories and the notes below."""
import json, re, glob, os
root = os.path.dirname(os.path.dirname(os.path.abspath(__file__)))
names = {}
for f in sorted(glob.glob(root + '/rocq/theories/*.v')):
    for m in re.finditer(r'^Theorem\s+(C\d\d\w*)', open(f, encoding='utf-8').read(), re.M):
        names.setdefault(m.group(1)[:3], []).append(m.group(1))
notes = json.load(open(root + '/tools/notes.json', encoding='utf-8'))
claims = []
for l in open(root + '/properties.jsonl', encoding='utf-8'):
    i = json.loads(l)['id']
    ts = names.get(i, [])
    if not ts:
        st = 'not_applicable' if notes.get(i, '').startswith('N/A') else 'partial'
    elif any('_refuted' in t or '_partial' in t for t in ts):
        st = 'partial'
    else:
        st = 'proved'
    claims.append({'property': i, 'status': st, 'theorems': ts, 'note': notes.get(i, '' if ts else 'no theorem yet')})
json.dump({'claims': claims}, open(root + '/MANIFEST.json', 'w', encoding='utf-8'), ensure_ascii=False, indent=1)
print(len([c for c in claims if c['theorems']]), 'of', len(claims))
print('without theorem:', [c['property'] for c in claims if not c['theorems']])
