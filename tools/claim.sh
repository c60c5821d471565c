#!/bin/sh
# claim.sh ID STATUS NOTE : record a claim in tools/claims.json
python3 - "$@" <<'P'
import json,sys,os
f='/verif/tools/claims.json'
d=json.load(open(f)); d[sys.argv[1]]={'status':sys.argv[2],'note':sys.argv[3]}
json.dump(dict(sorted(d.items())),open(f,'w'),indent=1)
P
