"""Runs Print Assumptions on every theorem of MANIFEST.json (needs a finished build in rocq/) and
writes ASSUMPTIONS.md."""
import json, re, subprocess, collections
m = json.load(open('/verif/MANIFEST.json'))
ths = [t for c in m['claims'] for t in c['theorems']]
files = [l.strip() for l in open('/verif/rocq/_CoqProject') if l.strip().endswith('.v') and '/Props/' in l]
where = {}
for f in files:
    for n in re.findall(r"^\s*(?:Theorem|Lemma|Corollary)\s+([\w']+)", open('/verif/rocq/' + f).read(), re.M):
        where.setdefault(n, f.split('/')[-1][:-2])
src = "\n".join(f"From Verif.Props Require {f.split('/')[-1][:-2]}." for f in files)
for t in ths:
    src += f'\nGoal True. idtac "@@{t}". exact I. Qed.\nPrint Assumptions Verif.Props.{where[t]}.{t}.'
open('/tmp/pa.v', 'w').write(src)
out = subprocess.run(['coqc', '-Q', 'theories', 'Verif', '/tmp/pa.v'], cwd='/verif/rocq', capture_output=True, text=True).stdout
g = collections.defaultdict(list)
for blk in out.split('@@')[1:]:
    n, rest = blk.split('\n', 1)
    g[tuple(sorted(set(re.findall(r'^([\w\.]+)\s*:', rest, re.M)) - {'Axioms'}))].append(n)
with open('/verif/ASSUMPTIONS.md', 'w') as f:
    f.write('# Print Assumptions of every theorem in MANIFEST.json (generated by tools/assumptions.py)\n')
    for ax, ns in sorted(g.items(), key=lambda kv: len(kv[0])):
        f.write(f"\n## {', '.join(ax) if ax else 'Closed under the global context (no axioms)'}\n\n{len(ns)} theorems\n\n")
        for n in ns: f.write(f'* {n}\n')
print({k: len(v) for k, v in g.items()})
