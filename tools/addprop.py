"""usage: addprop.py < file with p(...) calls : inserts them into props1.py and regenerates properties.jsonl"""
import sys, subprocess
f='/verif/tools/props1.py'; s=open(f).read(); new=sys.stdin.read()
i=s.index("with open"); open(f,'w').write(s[:i]+new.rstrip()+"\n"+s[i:])
subprocess.check_call(['python3',f])
