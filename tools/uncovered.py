#!/usr/bin/env python3
"""List model definitions that no property statement reaches."""
import re, glob
defs = {}
for f in glob.glob('/verif/rocq/theories/Model/*.v'):
    s = re.sub(r'\(\*.*?\*\)', '', open(f).read(), flags=re.S)
    ms = list(re.finditer(r'^(?:Definition|Fixpoint)\s+(\w+)', s, re.M))
    for i, m in enumerate(ms):
        end = ms[i + 1].start() if i + 1 < len(ms) else len(s)
        defs[m.group(1)] = (f.split('/')[-1], set(re.findall(r"[\w']+", s[m.end():end])))
words = set()
for f in glob.glob('/verif/rocq/theories/Props/*.v') + glob.glob('/verif/rocq/theories/Spec/*.v'):
    s = re.sub(r'\(\*.*?\*\)', '', open(f).read(), flags=re.S)
    s = re.sub(r'(?m:^)Proof\b.*?Qed\.', '', s, flags=re.S)
    words |= set(re.findall(r"[\w']+", s))
seen, todo = set(), [d for d in defs if d in words]
while todo:
    d = todo.pop()
    if d in seen:
        continue
    seen.add(d)
    todo += [x for x in defs[d][1] if x in defs]
for d in sorted(defs, key=lambda d: defs[d][0]):
    if d not in seen:
        print(defs[d][0], d)
