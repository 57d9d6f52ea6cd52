#!/usr/bin/env python3
"""Writes MANIFEST.json: theorems are collected from Props/*.v by their Cnn_ prefix."""
import json,os,re,glob
root=os.path.join(os.path.dirname(os.path.abspath(__file__)),"..")
names={}
for f in sorted(glob.glob(root+"/rocq/theories/Props/*.v")):
    for m in re.finditer(r"^\s*(?:Theorem|Corollary)\s+(C\d\d+)_(\w+)",open(f).read(),re.M):
        names.setdefault(m.group(1),[]).append(m.group(1)+"_"+m.group(2))
PARTIAL={}; NOTE={}; NA={}
exec(open(os.path.join(root,"tools","manifest_notes.py")).read())
claims=[]
for l in open(root+"/properties.jsonl"):
    q=json.loads(l); i=q["id"]
    if i in NA: claims.append(dict(property=i,status="not_applicable",theorems=[],note=NA[i])); continue
    if i not in names: print("no theorem for",i); continue
    st="partial" if i in PARTIAL or any(n.endswith("_partial") for n in names[i]) else "proved"
    claims.append(dict(property=i,status=st,theorems=names[i],note=PARTIAL.get(i,NOTE.get(i,""))))
json.dump(dict(claims=claims),open(root+"/MANIFEST.json","w"),indent=1)
print(len(claims),"claims",sum(len(c["theorems"]) for c in claims),"theorems")
