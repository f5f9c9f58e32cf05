"""Run seeded wrong programs against the theorems.

usage: mutate.py MUTANTS.py [first [last]]

MUTANTS.py defines M, a list of dicts with keys id, file, definition, old, new,
claim and optionally nth (which occurrence of old, default 0).  For each one a
scratch copy of rocq/ is edited and the files that depend on the edited one are
compiled in order.  When a proof no longer checks, the claimed theorems whose
proofs use it (directly or through other lemmas, found by name in the proof
texts) have lost their proof; the mutant is then done.  If no claimed theorem
uses it, the proof is replaced by Admitted in the scratch copy and the build
goes on.  With ALL=1 the build always goes on to the end.  One line per mutant
is appended to seeded/LOG.jsonl (or to $OUT).  $BASE is a built copy of rocq/
to start from.
"""
import json, os, re, shutil, subprocess, sys
ROOT = "/verif"
SCRATCH = os.environ.get("SCRATCH", "/tmp/mut")

def sh(cmd, **kw):
    return subprocess.run(cmd, shell=True, capture_output=True, text=True, **kw)

def order():
    return [l.strip() for l in open(SCRATCH + "/_CoqProject") if l.strip().endswith(".v")]

START = re.compile(r"^\s*(?:Local\s+|Global\s+)?(Lemma|Theorem|Example|Corollary|Fact|Remark|Instance|Definition|Fixpoint|Record|Inductive|Ltac|Let)\s+(\w+)", re.M)

def uses(files):
    """for every name the names used in its statement or proof"""
    body = {}
    for f in files:
        txt = open(f"{SCRATCH}/{f}").read()
        ms = list(START.finditer(txt))
        for m, n in zip(ms, ms[1:] + [None]):
            body.setdefault(m.group(2), "")
            body[m.group(2)] += txt[m.end():n.start() if n else len(txt)]
    names = set(body)
    return {n: set(re.findall(r"\w+", b)) & names - {n} for n, b in body.items()}

def closure(graph, n, memo):
    if n not in memo:
        todo, seen = [n], set()
        while todo:
            x = todo.pop()
            for y in graph.get(x, ()):
                if y not in seen:
                    seen.add(y)
                    todo.append(y)
        memo[n] = seen
    return memo[n]

def admit(path, line):
    """replace the proof around line by Admitted; returns the name"""
    txt = open(path).read()
    starts = [m for m in START.finditer(txt) if txt.count("\n", 0, m.start(1)) + 1 <= line]
    m = starts[-1]
    name = m.group(2)
    p = txt.find("Proof", m.start())
    ends = [txt.find(e, m.start()) for e in ("Qed.", "Defined.")]
    ends = [e for e in ends if e >= 0]
    if p < 0 or not ends:
        return None
    e = min(ends)
    nxt = START.search(txt, m.end())
    if nxt and nxt.start() < p:
        return None
    e2 = e + (4 if txt.startswith("Qed.", e) else 8)
    keep = "\n" * txt.count("\n", p, e2)
    txt = txt[:p] + "Proof. Admitted." + keep + txt[e2:]
    open(path, "w").write(txt)
    return name

def depends(files):
    """file -> files it requires, transitively"""
    out = {}
    for f in files:
        txt = open(f"{SCRATCH}/{f}").read()
        mods = set()
        for m in re.finditer(r"From Verif Require (?:Import|Export) ([^.]*)\.", txt):
            mods |= set(m.group(1).split())
        s = set()
        for x in mods:
            g = "theories/%s.v" % x
            s |= {g} | out.get(g, set())
        out[f] = s
    return out

def run(mut, claims):
    shutil.rmtree(SCRATCH, ignore_errors=True)
    shutil.copytree(os.environ.get("BASE", ROOT + "/rocq"), SCRATCH)
    path = f"{SCRATCH}/theories/{mut['file']}"
    txt = open(path).read()
    k = -1
    for _ in range(mut.get("nth", 0) + 1):
        k = txt.find(mut["old"], k + 1)
    if k < 0:
        return {"error": "text not found"}
    files = order()
    graph, memo = uses(files), {}
    open(path, "w").write(txt[:k] + mut["new"] + txt[k + len(mut["old"]):])
    names = sorted({t for v in claims.values() for t in v})
    dep = depends(files)
    me = "theories/" + mut["file"]
    admitted, lost = [], []
    for f in files:
        if f != me and me not in dep[f]:
            continue
        while True:
            r = sh(f"timeout 450 coqc -time -q -w none -Q theories Verif {f}", cwd=SCRATCH)
            if r.returncode == 0:
                break
            m = re.search(r'File "[^"]*", line (\d+)', r.stderr)
            line = int(m.group(1)) if m else None
            if r.returncode == 124:  # the proof after the last finished sentence does not end
                c = re.findall(r"^Chars \d+ - (\d+)", r.stdout, re.M)
                if c:
                    line = open(f"{SCRATCH}/{f}", "rb").read()[:int(c[-1])].count(b"\n") + 1
            if line is None:
                return {"error": (r.stderr + r.stdout)[-800:], "admitted": admitted, "lost": lost}
            if f == me:
                return {"error": "does not typecheck: " + r.stderr[-400:]}
            n = admit(f"{SCRATCH}/{f}", line)
            if n is None:
                return {"error": f"cannot go on at {f}:{line}", "admitted": admitted, "lost": lost}
            admitted.append(n)
            lost += [c for c in names if c not in lost and (c == n or n in closure(graph, c, memo))]
            if lost and not os.environ.get("ALL"):
                return {"admitted": admitted, "lost": lost}
    return {"admitted": admitted, "lost": lost}

def main():
    ns = {}
    exec(open(sys.argv[1]).read(), ns)
    M = ns["M"]
    a = int(sys.argv[2]) if len(sys.argv) > 2 else 0
    b = int(sys.argv[3]) if len(sys.argv) > 3 else len(M)
    man = json.load(open(ROOT + "/MANIFEST.json"))
    claims = {c["property"]: c["theorems"] for c in man["claims"]}
    for mut in M[a:b]:
        r = run(mut, claims)
        rec = {"id": mut["id"], "definition": mut["definition"], "file": mut["file"],
               "edit": f"{mut['old']}  ==>  {mut['new']}", "claim_broken": mut["claim"],
               "failed": r.get("lost", []), "failed_lemmas": r.get("admitted", []), "tightened": []}
        if "error" in r:
            rec["error"] = r["error"]
        out = os.environ.get("OUT", ROOT + "/seeded/LOG.jsonl")
        with open(out, "a") as fh:
            fh.write(json.dumps(rec) + "\n")
        print(mut["id"], "lost", len(rec["failed"]), "lemmas", rec["failed_lemmas"][:4], r.get("error", ""), flush=True)

main()
