"""Regenerates MANIFEST.json from the table below (property, status, theorems, note)."""
import json, os
HERE = os.path.dirname(os.path.dirname(os.path.abspath(__file__)))
exec(open(os.path.join(HERE, 'tools', 'claims.py')).read())
out = {"claims": [{"property": p, "status": s, "theorems": t.split(), "note": n} for p, s, t, n in CLAIMS]}
open(os.path.join(HERE, 'MANIFEST.json'), 'w').write(json.dumps(out, indent=1) + '\n')
