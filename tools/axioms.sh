#!/bin/sh
# Print Assumptions of every theorem in MANIFEST.json -> AXIOMS.md (needs a built tree)
cd /verif/rocq && python3 - <<'P'
import json, glob, os, subprocess, re
claims = json.load(open('/verif/MANIFEST.json'))['claims']
mods = [os.path.basename(f)[:-2] for f in sorted(glob.glob('theories/Props/*.v'))]
names = [t for c in claims for t in c['theorems']]
src = 'From Verif.Props Require Import %s.\n' % ' '.join(mods)
for n in names: src += 'Goal True. idtac "@@%s". exact I. Qed.\nPrint Assumptions %s.\n' % (n, n)
open('/tmp/ax.v', 'w').write(src)
out = subprocess.run(['coqc', '-Q', 'theories', 'Verif', '/tmp/ax.v'], capture_output=True, text=True)
if out.returncode: print(out.stderr[-2000:])
groups = {}
for part in out.stdout.split('@@')[1:]:
    n, rest = part.split('\n', 1)
    ax = tuple(sorted(set(re.findall(r'^(\w[\w.]*)\s*:', rest, re.M)) - {'Axioms'}))
    groups.setdefault(ax, []).append(n)
with open('/verif/AXIOMS.md', 'w') as f:
    f.write('# Print Assumptions, per theorem (generated by tools/axioms.sh)\n')
    for ax, ns in sorted(groups.items()):
        f.write('\n## ' + (', '.join(ax) if ax else 'Closed under the global context (no axioms)') + '\n\n')
        f.write(', '.join(ns) + '\n')
print({a: len(n) for a, n in groups.items()})
P
