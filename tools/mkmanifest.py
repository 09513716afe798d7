#!/usr/bin/env python3
"""Generate /verif/MANIFEST.json. Theorem names are collected from the sources: every
`Theorem Cnn_...` belongs to property Cnn."""
import re,glob,json,os
root=os.path.dirname(os.path.dirname(os.path.abspath(__file__)))
props=[json.loads(l)["id"] for l in open(root+"/properties.jsonl")]
notes=json.load(open(root+"/tools/notes.json"))
th={}
order=[l.strip() for l in open(root+"/rocq/_CoqProject") if l.strip().endswith(".v")]
for f in order:
    for m in re.finditer(r"^(?:Theorem)\s+(C\d\d)_(\w+)",open(root+"/rocq/"+f).read(),re.M):
        th.setdefault(m.group(1),[]).append(m.group(1)+"_"+m.group(2))
claims=[]
for p in props:
    n=notes.get(p,{})
    ts=th.get(p,[])
    st=n.get("status")
    if not st: st="proved" if ts else "not_applicable"
    if not ts: continue
    claims.append({"property":p,"status":st,"theorems":ts,"note":n.get("note","")})
json.dump({"claims":claims},open(root+"/MANIFEST.json","w"),indent=1)
print(len(claims),"claims of",len(props))
