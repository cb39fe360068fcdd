#!/usr/bin/env python3
"""Writes ../MANIFEST.json. Theorems are collected from Props*.v by their C<nn>_ prefix."""
import json, os, re, glob
root=os.path.join(os.path.dirname(__file__),"..")
thms={}
for f in sorted(glob.glob(root+"/rocq/theories/Props*.v")):
    for m in re.finditer(r"^Theorem (C(\d\d\d?)_\w+)", open(f).read(), re.M):
        thms.setdefault("C"+m.group(2),[]).append(m.group(1))
notes=json.load(open(root+"/tools/notes.json"))
claims=[]
for l in open(root+"/properties.jsonl"):
    p=json.loads(l); i=p["id"]
    t=thms.get(i,[])
    n=notes.get(i,{})
    if not t: continue
    bad=[x for x in t if x.endswith("_refuted") or x.endswith("_partial")]
    status=n.get("status") or ("partial" if bad else "proved")
    claims.append(dict(property=i,status=status,theorems=t,note=n.get("note","")))
json.dump({"claims":claims},open(root+"/MANIFEST.json","w"),indent=1)
print(len(claims),"claims", sum(c["status"]=="proved" for c in claims),"proved")
