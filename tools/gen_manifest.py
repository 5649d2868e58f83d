#!/usr/bin/env python3
"""Writes MANIFEST.json from the table below and checks that every theorem exists."""
import json,re,glob,collections
M=[]
def m(prop,status,note,*pref):
    M.append((prop,status,note,pref))
# theorems of a property are all `Theorem Cnn_...` in Properties*.v unless listed
TH=collections.defaultdict(list)
for f in sorted(glob.glob('/verif/rocq/theories/Properties*.v')):
    mod=f.split('/')[-1][:-2]
    for x in re.findall(r'^Theorem (C(\d\d)_\w+)',open(f).read(),re.M):
        TH['C'+x[1]].append((mod,x[0]))
NOTES=json.load(open('/verif/tools/notes.json'))
out=[]
for line in open('/verif/properties.jsonl'):
    i=json.loads(line)['id']
    if i in NOTES and TH[i]:
        out.append({"property":i,"status":NOTES[i][0],"theorems":[n for _,n in TH[i]],"note":NOTES[i][1]})
    elif i in NOTES and NOTES[i][0]=='not_applicable':
        out.append({"property":i,"status":"not_applicable","theorems":[],"note":NOTES[i][1]})
    else: print("no claim for",i,[n for _,n in TH[i]])
json.dump({"claims":out},open('/verif/MANIFEST.json','w'),indent=1)
