"""Write MANIFEST.json; every theorem named must exist in rocq/theories."""
import json, pathlib, re, sys
root = pathlib.Path(__file__).resolve().parent.parent
claims = {}
def c(pid, theorems, note="", status="proved"):
    claims[pid] = {"property": pid, "status": status, "theorems": theorems.split(), "note": note}
exec((root / "tools" / "claims.py").read_text())
names = set()
for f in (root / "rocq" / "theories").glob("*.v"):
    names |= set(re.findall(r"^\s*(?:Theorem|Lemma|Corollary)\s+([\w']+)", f.read_text(), re.M))
props = [json.loads(l)["id"] for l in (root / "properties.jsonl").read_text().splitlines()]
bad = [(p, t) for p, v in claims.items() for t in v["theorems"] if t not in names]
print("missing theorems:", bad)
print("unclaimed:", [p for p in props if p not in claims], "unknown:", [p for p in claims if p not in props])
out = {"claims": [claims[p] for p in props if p in claims]}
(root / "MANIFEST.json").write_text(json.dumps(out, indent=1) + "\n")
sys.exit(bool(bad))
