"""Writes MANIFEST.json from the theorem names found in rocq/theories/Props*.v.

Status: proved unless the id is listed in PARTIAL; ids without theorems are
not listed."""
import json, os, re, glob
here = os.path.dirname(os.path.abspath(__file__))
root = os.path.join(here, '..')
PARTIAL = json.load(open(os.path.join(here, 'partial.json')))
NOTES = json.load(open(os.path.join(here, 'notes.json')))
th = {}
for f in sorted(glob.glob(os.path.join(root, 'rocq/theories/Props*.v'))):
    for m in re.finditer(r'^\s*Theorem (C\d+)(\w*)', open(f).read(), re.M):
        th.setdefault(m.group(1), []).append(m.group(1) + m.group(2))
claims = []
for line in open(os.path.join(root, 'properties.jsonl')):
    i = json.loads(line)['id']
    if i not in th:
        continue
    claims.append(dict(property=i, status='partial' if i in PARTIAL else 'proved',
                       theorems=th[i], note=PARTIAL.get(i) or NOTES.get(i, '')))
json.dump({'claims': claims}, open(os.path.join(root, 'MANIFEST.json'), 'w'), indent=1)
print(len(claims), [json.loads(l)['id'] for l in open(os.path.join(root, 'properties.jsonl')) if json.loads(l)['id'] not in th])
