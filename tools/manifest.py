#!/usr/bin/env python3
"""Regenerates MANIFEST.json: theorem names are collected from the *_props.v files by their Cnn_ prefix, statuses and
notes come from tools/notes.json ({"C01": {"status": ..., "note": ...}}).  Theorems that also prove other properties are
listed in tools/extra.json ({"C135": ["C01_split_stronger", ...]})."""
import glob, json, os, re

ROOT = os.path.dirname(os.path.dirname(os.path.abspath(__file__)))
props = [json.loads(line) for line in open(os.path.join(ROOT, "properties.jsonl")) if line.strip()]
notes = json.load(open(os.path.join(ROOT, "tools", "notes.json")))
thms = {}
for path in sorted(glob.glob(os.path.join(ROOT, "rocq", "theories", "*_props.v"))):
    for name in re.findall(r"^\s*(?:Theorem|Corollary)\s+((C\d+)_\w+)", open(path).read(), flags=re.M):
        thms.setdefault(name[1], []).append(name[0])
known = {t for ts in thms.values() for t in ts}
for i, ts in json.load(open(os.path.join(ROOT, "tools", "extra.json"))).items():
    assert not [t for t in ts if t not in known], (i, ts)
    thms.setdefault(i, []).extend(ts)
claims = []
for p in props:
    i = p["id"]
    ts = thms.get(i, [])
    n = notes.get(i, {})
    if not ts:
        status, note = "not_applicable", n.get("note", "not modelled yet")
    else:
        status = n.get("status") or ("partial" if any(t.endswith(("_partial", "_refuted")) for t in ts) else "proved")
        note = n.get("note", "")
    claims.append({"property": i, "status": status, "theorems": ts, "note": note})
json.dump({"claims": claims}, open(os.path.join(ROOT, "MANIFEST.json"), "w"), indent=1)
print({s: sum(c["status"] == s for c in claims) for s in ("proved", "partial", "not_applicable")})
