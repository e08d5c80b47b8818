#!/usr/bin/env python3
"""Check the line ranges cited in Model/*.v against the functions of /repo.

Prints every cited range whose ends are not the ends of a function there
(comments may also cite parts of a function: read the output, do not trust it)."""
import re, sys, glob, os
INC = '/repo/libs/mathlib/include/'
def funcs(path):
    L = open(path, errors='replace').read().split('\n')
    out, i = [], 0
    while i < len(L):
        if L[i].startswith('template') or re.match(r'^(inline|static|const)\b', L[i]):
            j = i
            while j < len(L) and not (L[j].startswith('}') or (L[j].rstrip().endswith(';') and (not L[j].startswith(('\t', ' ')) or L[j].rstrip().endswith(');')) and not any(x.startswith('{') for x in L[i:j+1]))):
                j += 1
            sig = next((x for x in L[i:j+1] if not x.startswith('template')), '')
            out.append((i + 1, j + 1, sig.strip()))
            i = j
        i += 1
    return out
cache = {}
verbose = '-v' in sys.argv
files = [a for a in sys.argv[1:] if a != '-v'] or sorted(glob.glob(os.path.dirname(os.path.abspath(__file__)) + '/../rocq/theories/Model/*.v'))
for f in files:
    s = open(f).read()
    for m in re.finditer(r'\(\*\*(.*?)\*\)\s*(\w+ \w+)', s, re.S):
        cur = None
        for t in re.finditer(r'((?:impl/)?\w+\.h):|(\d+)-(\d+)', m.group(1)):
            if t.group(1): cur = t.group(1); continue
            if not cur: continue
            a, b = int(t.group(2)), int(t.group(3))
            p = INC + cur
            if not os.path.exists(p): print(os.path.basename(f), m.group(2), 'NO FILE', cur); continue
            fs = cache.setdefault(cur, funcs(p))
            inside = [x for x in fs if x[0] <= b and x[1] >= a]
            ok = any(x[0] == a for x in inside) and any(x[1] == b for x in inside)
            if verbose or not ok:
                print(os.path.basename(f), m.group(2), cur, a, b, 'ok' if ok else 'BAD', [(x[0], x[1], x[2][:70]) for x in inside][:3])
