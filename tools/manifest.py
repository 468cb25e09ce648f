"""Regenerates MANIFEST.json: theorem names are collected from the Properties_*.v
files by their Cnn_ prefix; status and note are maintained here."""
import json, re, glob, os
root = os.path.dirname(os.path.dirname(os.path.abspath(__file__)))
names = {}
for f in sorted(glob.glob(root + '/rocq/theories/Properties_*.v')):
    for m in re.finditer(r'^Theorem\s+((C\d\d+)_\w+)', open(f).read(), re.M):
        names.setdefault(m.group(2), []).append(m.group(1))
S = json.load(open(root + '/tools/status.json'))
claims = []
for p in sorted(names):
    st, note = S[p]
    claims.append({"property": p, "status": st, "theorems": names[p], "note": note})
ids = [json.loads(l)['id'] for l in open(root + '/properties.jsonl')]
print('missing:', [i for i in ids if i not in names])
json.dump({"claims": claims}, open(root + '/MANIFEST.json', 'w'), indent=1)
