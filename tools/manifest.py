#!/usr/bin/env python3
# Source of MANIFEST.json: run `python3 tools/manifest.py > MANIFEST.json`
import json
C=[]
def m(p,status,thms,note): C.append(dict(property=p,status=status,theorems=thms,note=note))
exec(open(__file__.replace("manifest.py","claims.py")).read())
print(json.dumps({"claims":C},indent=1))
