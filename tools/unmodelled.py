#!/usr/bin/env python3
"""List the functions of /repo that no definition of Model/*.v cites."""
import re, glob, os, sys
sys.argv = [sys.argv[0], '/dev/null']
import io, contextlib
with contextlib.redirect_stdout(io.StringIO()):
    exec(open(os.path.dirname(os.path.abspath(__file__)) + '/cite.py').read())
cited = {}
for f in glob.glob(os.path.dirname(os.path.abspath(__file__)) + '/../rocq/theories/*/*.v'):
    for m in re.finditer(r'\(\*(.*?)\*\)', open(f).read(), re.S):
        cur = None
        for t in re.finditer(r'((?:impl/)?\w+\.h):|(\d+)(?:-(\d+))?', m.group(1)):
            if t.group(1): cur = t.group(1); continue
            if cur: cited.setdefault(cur, []).append((int(t.group(2)), int(t.group(3) or t.group(2))))
for p in sorted(glob.glob(INC + '*.h') + glob.glob(INC + 'impl/*.h')):
    k = p[len(INC):]
    for a, b, sig in funcs(p):
        if not any(x <= b and y >= a for x, y in cited.get(k, [])):
            print(k, a, b, sig)
