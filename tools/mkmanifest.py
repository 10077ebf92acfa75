#!/usr/bin/env python3
"""Regenerates MANIFEST.json from the theorems found in rocq/theories/P_*.v and the notes in tools/notes.json."""
import glob, json, os, re
root = os.path.dirname(os.path.dirname(os.path.abspath(__file__)))
notes = json.load(open(f"{root}/tools/notes.json"))
thms = {}
for f in sorted(glob.glob(f"{root}/rocq/theories/P_*.v")):
    for name in re.findall(r"^Theorem (C\d\d+_\w+)", open(f).read(), re.M):
        thms.setdefault(name.split("_")[0], []).append(name)
claims = []
for line in open(f"{root}/properties.jsonl"):
    pid = json.loads(line)["id"]
    if pid in thms:
        ts = thms[pid]
        partial = any(t.endswith(("_partial", "_refuted")) for t in ts)
        claims.append({"property": pid, "status": "partial" if partial else "proved",
                       "theorems": ts, "note": notes.get(pid, "")})
json.dump({"claims": claims}, open(f"{root}/MANIFEST.json", "w"), indent=1)
print(len(claims), "claims,", sum(len(c["theorems"]) for c in claims), "theorems,",
      sum(c["status"] == "partial" for c in claims), "partial")
