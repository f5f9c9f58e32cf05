"""Print Assumptions for every theorem of MANIFEST.json, in the build in rocq/.
Prints how many are closed, and what the others depend on."""
import json, os, re, subprocess, sys

ROOT = os.environ.get('ROOT', '/verif')
names = []
for c in json.load(open(ROOT + '/MANIFEST.json'))['claims']:
    for n in c['theorems']:
        if n not in names:
            names.append(n)
mods = [re.sub(r'theories/(\w+)\.v', r'\1', l.strip()) for l in open(ROOT + '/rocq/_CoqProject') if l.strip().endswith('.v')]
where = {}
for m in mods:
    t = open(f'{ROOT}/rocq/theories/{m}.v').read()
    for n in re.findall(r'^\s*(?:Theorem|Lemma|Example|Corollary|Definition)\s+(\w+)', t, re.M):
        where.setdefault(n, []).append(m)
src = 'From Verif Require ' + ' '.join(mods) + '.\n'
for n in names:
    m = [x for x in where[n] if x.startswith('Prop')] or where[n]
    src += f'Goal True. idtac "@@ {n}". Abort.\nPrint Assumptions {m[0]}.{n}.\n'
open('/tmp/Audit.v', 'w').write(src)
r = subprocess.run(['coqc', '-Q', ROOT + '/rocq/theories', 'Verif', '/tmp/Audit.v'], capture_output=True, text=True)
if r.returncode:
    print(r.stdout[-500:], r.stderr[-2000:]); sys.exit(1)
parts = r.stdout.split('@@ ')[1:]
closed, rest = 0, {}
for p in parts:
    name, _, body = p.partition('\n')
    if 'Closed under the global context' in body:
        closed += 1
    else:
        rest[name.strip()] = body.strip()
print(len(parts), 'theorems,', closed, 'closed under the global context')
for n, b in rest.items():
    print(n, ':', b)
