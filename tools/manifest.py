#!/usr/bin/env python3
"""Rebuild MANIFEST.json from the Theorem names in rocq/theories and tools/status.json.

Theorems named Cnn_... are claimed for property Cnn. status.json maps a property to
{"status": ..., "note": ...}; properties without theorems are left out."""
import json, re, glob, os
root = os.path.dirname(os.path.dirname(os.path.abspath(__file__)))
status = json.load(open(os.path.join(root, "tools/status.json")))
thms = {}
order = [l.strip() for l in open(os.path.join(root, "rocq/_CoqProject")) if l.strip().endswith(".v")]
for f in order:
    src = open(os.path.join(root, "rocq", f)).read()
    for m in re.finditer(r"^\s*(?:Theorem|Corollary) ((C\d\d+)_\w+)", src, re.M):
        thms.setdefault(m.group(2), []).append(m.group(1))
claims = []
for line in open(os.path.join(root, "properties.jsonl")):
    p = json.loads(line)["id"]
    s = status.get(p)
    if p in thms:
        assert s, "no status for " + p
        claims.append({"property": p, "status": s["status"], "theorems": thms[p], "note": s["note"]})
    elif s:
        claims.append({"property": p, "status": s["status"], "theorems": [], "note": s["note"]})
json.dump({"claims": claims}, open(os.path.join(root, "MANIFEST.json"), "w"), indent=1, ensure_ascii=False)
print(len(claims), "claims", sum(len(c["theorems"]) for c in claims), "theorems")
