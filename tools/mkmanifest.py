# Regenerates /verif/MANIFEST.json: which theorems settle which property.
import json, re, os
C = []
def c(pid, status, theorems, note=""):
    C.append(dict(property=pid, status=status, theorems=theorems.split(), note=note))
here = os.path.dirname(os.path.abspath(__file__))
exec(open(os.path.join(here, "claims.py")).read())
props = [json.loads(l)["id"] for l in open(os.path.join(here, "../properties.jsonl"))]
done = {x["property"] for x in C}
for p in props:
    if p not in done: c(p, "partial", "", "not proved yet")
# every theorem named must exist
names = set()
td = os.path.join(here, "../rocq/theories")
for f in os.listdir(td):
    if f.endswith(".v"):
        names |= set(re.findall(r"^\s*(?:Theorem|Lemma|Corollary)\s+([A-Za-z0-9_']+)", open(os.path.join(td, f)).read(), re.M))
for x in C:
    for t in x["theorems"]:
        assert t in names, (x["property"], t)
C.sort(key=lambda x: x["property"])
json.dump({"claims": C}, open(os.path.join(here, "../MANIFEST.json"), "w"), indent=1)
print(len(C), sum(x["status"] == "proved" for x in C), "proved")
