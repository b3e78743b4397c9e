#!/usr/bin/env python3
"""Check the citations of /repo in the comments: the lines must exist, and if the citation is followed by the name
of a function, `fn name` must be inside the cited lines."""
import re,os,glob,sys
for f in sorted(glob.glob('/verif/rocq/theories/*.v')):
    s=open(f).read()
    for m in re.finditer(r'((?:src|chop|util|examples|tests)/[\w/]+\.rs):(\d+)(?:-(\d+))?((?:,\s*\d+(?:-\d+)?)*)[ ]+([\w]+(?:::\w+)*)?',s):
        p='/repo/'+m.group(1)
        if not os.path.exists(p): print(os.path.basename(f),m.group(0),'NOFILE'); continue
        L=open(p).read().split('\n')
        a=int(m.group(2)); b=int(m.group(3) or a)
        if b>len(L): print(os.path.basename(f),m.group(0),'BEYOND',len(L))
        nm=(m.group(5) or '').split('::')[-1]
        if not nm: continue
        pos=[i+1 for i,l in enumerate(L) if re.search(r'\bfn '+nm+r'\b',l)]
        if pos and not any(a-1<=i<=b for i in pos): print(os.path.basename(f),m.group(0),'FN AT',pos)
        elif '-v' in sys.argv: print('  ok' if pos else '  ??',os.path.basename(f),m.group(0))
        # first line should be near
        if pos and any(a-1<=i<=b for i in pos) and not any(abs(i-a)<=2 for i in pos): print(os.path.basename(f),m.group(0),'START?',pos)
