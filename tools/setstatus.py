#!/usr/bin/env python3
"""setstatus.py ID STATUS [NOTE]: set one entry of tools/status.json."""
import json, sys, os
p = os.path.join(os.path.dirname(os.path.abspath(__file__)), 'status.json')
d = json.load(open(p))
d[sys.argv[1]] = [sys.argv[2], sys.argv[3] if len(sys.argv) > 3 else ""]
with open(p, 'w') as f:
    f.write('{\n' + ',\n'.join('%s: %s' % (json.dumps(k), json.dumps(d[k])) for k in sorted(d)) + '\n}\n')
