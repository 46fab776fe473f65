#!/usr/bin/env python3
"""Writes MANIFEST.json from tools/claims.txt: lines  ID status thm,thm,... | note"""
import json,os
here=os.path.dirname(os.path.abspath(__file__))
claims=[]
for l in open(os.path.join(here,'claims.txt')):
    l=l.strip()
    if not l or l.startswith('#'): continue
    head,_,note=l.partition('|')
    p=head.split()
    claims.append({"property":p[0],"status":p[1],"theorems":p[2].split(',') if len(p)>2 else [],"note":note.strip()})
json.dump({"claims":claims},open(os.path.join(here,'..','MANIFEST.json'),'w'),indent=1)
