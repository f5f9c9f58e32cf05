"""Check the citations in the comments of Model*.v against /repo: the cited
lines exist, and a definition named like a function of the cited file cites
lines of that function.  Also lists definitions without any citation."""
import ast, glob, os, re

REPO = '/repo/src/cmomy/'
files = {os.path.relpath(p, REPO): p for p in glob.glob(REPO + '**/*.py', recursive=True)}

def resolve(name):
    hits = [k for k in files if k == name or k.endswith('/' + name)]
    if name in files:
        return [name]
    return hits

funcs = {}
for k, p in files.items():
    for n in ast.walk(ast.parse(open(p).read())):
        if isinstance(n, ast.FunctionDef) and not any('overload' in ast.dump(d) for d in n.decorator_list):
            st = n.decorator_list[0].lineno if n.decorator_list else n.lineno
            funcs.setdefault((k, n.name.lstrip('_')), []).append((st, n.end_lineno))
length = {k: len(open(p).read().splitlines()) for k, p in files.items()}

bad = 0
for v in sorted(glob.glob('/verif/rocq/theories/Model*.v')):
    t = open(v).read()
    for m in re.finditer(r'^[ \t]*(?:Definition|Fixpoint|Record|Inductive|Notation)\s+(\w+)', t, re.M):
        ps = t[:m.start()].rstrip()
        com = ps[ps.rfind('(*'):] if ps.endswith('*)') else ''
        cites = re.findall(r'((?:\w+/)*\w+\.py)(?::([\d, -]+))?', com)
        if not cites:
            print('no citation', os.path.basename(v), m.group(1)); bad += 1
        for f, ls in cites:
            rs = resolve(f)
            if not rs:
                print('no such file', f, m.group(1)); bad += 1; continue
            ranges = [tuple(map(int, r.split('-'))) if '-' in r else (int(r), int(r)) for r in re.findall(r'\d+-\d+|\d+', ls or '')]
            for a, b in ranges:
                if all(b > length[k] for k in rs):
                    print('beyond the end', f, a, b, m.group(1)); bad += 1
            for k in rs:
                name = re.sub(r'^(c|cx|x|acc|array|np|h)_', '', m.group(1))
                name = re.sub(r'_nd$|1$|2$', '', name)
                for cand in {name, m.group(1)}:
                    fr = funcs.get((k, cand))
                    if fr and ranges and not any(a <= e and s <= b for s, e in fr for a, b in ranges):
                        print('elsewhere', os.path.basename(v), m.group(1), f, ls, 'function at', fr); bad += 1
print(bad, 'remarks')
