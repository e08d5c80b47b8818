#!/usr/bin/env python3
"""Write AXIOMS.md: what Print Assumptions lists for each property theorem.

Recompiles the files of rocq/theories/Props (the rest must be built)."""
import glob, os, re, subprocess
root = os.path.dirname(os.path.dirname(os.path.abspath(__file__)))
groups = {}
for f in sorted(glob.glob(root + '/rocq/theories/Props/*.v')):
    names = re.findall(r'^Print Assumptions (\w+)\.', open(f).read(), re.M)
    r = subprocess.run(['coqc', '-q', '-Q', 'theories', 'Verif', '-o', '/tmp/' + os.path.basename(f) + 'o', os.path.relpath(f, root + '/rocq')],
                       cwd=root + '/rocq', capture_output=True, text=True)
    blocks = []
    for l in r.stdout.split('\n'):
        if l.startswith('Closed under'):
            blocks.append([])
        elif l.startswith('Axioms:'):
            blocks.append([])
        elif blocks and re.match(r'[A-Za-z]', l):
            blocks[-1].append(l.split(':')[0].strip())
    assert r.returncode == 0 and len(blocks) == len(names), (f, len(blocks), len(names), r.stderr[-300:])
    for n, b in zip(names, blocks):
        groups.setdefault(tuple(sorted(b)), []).append(n)
with open(root + '/AXIOMS.md', 'w') as o:
    o.write('# What Print Assumptions lists for each theorem\n\nGenerated by tools/axioms.py.\n')
    for k in sorted(groups, key=len):
        o.write('\n## ' + (', '.join(f'`{x}`' for x in k) or 'no axioms') + '\n\n' + ', '.join(sorted(groups[k])) + '\n')
