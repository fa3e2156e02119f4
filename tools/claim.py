#!/usr/bin/env python3
"""claim.py ID status 'thm1 thm2 ...' ['note'] - update tools/claims.json"""
import json,sys,os
f=os.path.join(os.path.dirname(__file__),'claims.json'); d=json.load(open(f))
def add(i,st,th,note=''):
    d[i]={"status":st,"theorems":th.split()}
    if note: d[i]["note"]=note
def save(): json.dump(dict(sorted(d.items())),open(f,'w'),indent=0)
if __name__=='__main__':
    add(*sys.argv[1:]); save()
