#!/usr/bin/env python3
"""Print Assumptions for every theorem of the manifest -> ASSUMPTIONS.md.
Run after a build in /verif/rocq."""
import glob, json, os, re, subprocess, tempfile
root = os.path.dirname(os.path.dirname(os.path.abspath(__file__)))
mods = {}
for f in sorted(glob.glob(os.path.join(root, 'rocq/theories/*Props.v'))):
    t = re.findall(r'^\s*Theorem\s+(C\d+_\w+)', open(f).read(), re.M)
    if t: mods[os.path.basename(f)[:-2]] = t
src = ''.join(f'From Verif Require {m}.\n' for m in mods)
for m, t in mods.items():
    for x in t: src += f'Goal True. idtac "@@{m}.{x}". Abort.\nPrint Assumptions Verif.{m}.{x}.\n'
d = tempfile.mkdtemp()
open(d + '/A.v', 'w').write(src)
out = subprocess.run(['coqc', '-Q', root + '/rocq/theories', 'Verif', d + '/A.v'], stdout=subprocess.PIPE, stderr=subprocess.STDOUT, text=True).stdout
groups = {}
for blk in out.split('@@')[1:]:
    name, _, rest = blk.partition('\n')
    if 'Closed under the global context' in rest: ax = ()
    else: ax = tuple(sorted(set(re.findall(r'^([A-Za-z_][\w.\']*)\s*:', rest, re.M)) - {'Axioms'}))
    groups.setdefault(ax, []).append(name.strip())
with open(root + '/ASSUMPTIONS.md', 'w') as f:
    f.write('# Print Assumptions of every property theorem\n\nGenerated by tools/assumptions.py.\n')
    for ax, names in sorted(groups.items()):
        f.write('\n## ' + (', '.join('`%s`' % a for a in ax) if ax else 'Closed under the global context (no axioms)') + f'\n\n{len(names)} theorems\n\n')
        for n in sorted(names, key=lambda s: s.split('.')[1]): f.write(f'* `{n}`\n')
print({k: len(v) for k, v in groups.items()})
