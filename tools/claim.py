#!/usr/bin/env python3
# usage: claim.py Cxx status note
import json,sys,os
p=os.path.join(os.path.dirname(__file__),'claims.json'); c=json.load(open(p))
c[sys.argv[1]]={"status":sys.argv[2],"note":sys.argv[3]}
json.dump(c,open(p,'w'),indent=1)
