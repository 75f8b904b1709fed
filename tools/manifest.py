"""Writes MANIFEST.json.  Theorem names are collected from rocq/theories/P_*.v by their CNN_ prefix."""
import re, json, glob, os
root = os.path.join(os.path.dirname(os.path.abspath(__file__)), '..')
names = {}
for f in sorted(glob.glob(os.path.join(root, 'rocq/theories/P_*.v'))):
    for m in re.finditer(r'^Theorem ((C\d\d+)_\w+)', open(f).read(), re.M):
        names.setdefault(m.group(2), []).append(m.group(1))
C = []
def c(pid, status, note, extra=()):
    C.append(dict(property=pid, status=status, theorems=list(dict.fromkeys(names.get(pid, []) + list(extra))), note=note))
exec(open(os.path.join(root, 'tools/claims.py')).read())
allids = [json.loads(l)['id'] for l in open(os.path.join(root, 'properties.jsonl'))]
done = [x['property'] for x in C]
allnames = set(sum(names.values(), []))
for x in C:
    assert x['theorems'], x
    for t in x['theorems']: assert t in allnames, t
print('missing claims:', [i for i in allids if i not in done])
print('unknown:', [i for i in done if i not in allids])
json.dump({"claims": C}, open(os.path.join(root, 'MANIFEST.json'), 'w'), indent=1)
