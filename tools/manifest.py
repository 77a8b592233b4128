#!/usr/bin/env python3
"""Writes MANIFEST.json from the claim table below."""
import json,os
C=[]
def c(p,s,t,n=""): C.append({"property":p,"status":s,"theorems":t,"note":n})
exec(open(os.path.join(os.path.dirname(__file__),"claims.py")).read())
json.dump({"claims":C},open(os.path.join(os.path.dirname(__file__),"..","MANIFEST.json"),"w"),indent=1)
