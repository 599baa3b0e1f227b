#!/usr/bin/env python3
"""Write MANIFEST.json from the theorems Cnn_* of rocq/theories/Properties*.v."""
import glob, json, os, re
root = os.path.dirname(os.path.dirname(os.path.abspath(__file__)))
thms = {}
for f in sorted(glob.glob(root + "/rocq/theories/Properties*.v")):
    for m in re.finditer(r"^(?:Theorem|Lemma|Corollary) (C\d\d)(_\w+)", open(f).read(), re.M):
        thms.setdefault(m.group(1), []).append(m.group(1) + m.group(2))
notes = json.load(open(root + "/tools/notes.json"))
claims = []
for line in open(root + "/properties.jsonl"):
    c = json.loads(line)["id"]
    n = notes.get(c, {})
    if c not in thms and n.get("status") != "not_applicable":
        continue
    status = n.get("status", "partial" if any(t.endswith("_partial") for t in thms.get(c, [])) else "proved")
    claims.append({"property": c, "status": status, "theorems": thms.get(c, []), "note": n.get("note", "")})
json.dump({"claims": claims}, open(root + "/MANIFEST.json", "w"), indent=1)
open(root + "/MANIFEST.json", "a").write("\n")
