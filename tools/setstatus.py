"""usage: setstatus.py Cnn status note  (several triples)"""
import json, sys
f='/verif/tools/status.json'; S=json.load(open(f)); a=sys.argv[1:]
for i in range(0,len(a),3): S[a[i]]=[a[i+1],a[i+2]]
json.dump(S,open(f,'w'),indent=1)
