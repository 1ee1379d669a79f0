"""Writes seeded/LOG.jsonl from the results of tools/mutate.py: mutlog.py RESULT_DIR."""
import json, os, sys
here = os.path.dirname(os.path.dirname(os.path.abspath(__file__)))
sys.path.insert(0, os.path.join(here, "seeded"))
from mutations import MUTATIONS, TIGHTENED
claims = {c["property"]: c["theorems"] for c in json.load(open(os.path.join(here, "MANIFEST.json")))["claims"]}
titles = {}
for line in open(os.path.join(here, "properties.jsonl")):
    p = json.loads(line)
    titles[p["id"]] = p["title"]
out = []
for m in MUTATIONS:
    f = os.path.join(sys.argv[1], m["name"] + ".json")
    if not os.path.exists(f):
        print("no result:", m["name"])
        continue
    r = json.load(open(f))
    failed = r["theorems_failed"]
    checked = [c for c in m["breaks"] if set(claims[c]) & set(failed + r["survived"])]
    missed = [c for c in checked if not set(claims[c]) & set(failed)]
    if missed:
        print("NOT CAUGHT", m["name"], missed)
    out.append({"name": m["name"], "definition": m["file"] + "." + m["definition"], "edit": m["edit"],
                "old": m["old"], "new": m["new"],
                "claim_broken": ["%s %s" % (c, titles[c]) for c in m["breaks"]] or "none: the edit does not change the behaviour",
                "claims_not_rebuilt_in_this_run": [c for c in m["breaks"] if c not in checked],
                "theorems_failed": failed, "theorems_survived_among_checked": len(r["survived"]),
                "theorems_tightened": TIGHTENED.get(m["name"], [])})
with open(os.path.join(here, "seeded", "LOG.jsonl"), "w") as fh:
    for x in out:
        fh.write(json.dumps(x) + "\n")
print(len(out))
