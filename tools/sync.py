#!/usr/bin/env python3
"""Regenerates the Print Assumptions blocks, _CoqProject file list and MANIFEST.json.
Headline theorems are the theorems named Cnn_... in rocq/theories/*_Props.v."""
import json, os, re
ROOT = os.path.dirname(os.path.dirname(os.path.abspath(__file__)))
TH = os.path.join(ROOT, "rocq", "theories")
STATUS = json.load(open(os.path.join(ROOT, "tools", "status.json")))
claims = {}
files = sorted(f for f in os.listdir(TH) if f.endswith(".v"))
for f in files:
    if not f.endswith("_Props.v"):
        continue
    p = os.path.join(TH, f)
    s = open(p).read()
    s = re.sub(r"\n*(Print Assumptions [A-Za-z0-9_']+\.\n)+\s*$", "\n", s).rstrip() + "\n"
    names = re.findall(r"^Theorem\s+(C\d\d+_[A-Za-z0-9_']+)", s, re.M)
    out = s + "\n" + "".join("Print Assumptions %s.\n" % n for n in names)
    if out != open(p).read():
        open(p, "w").write(out)
    for n in names:
        claims.setdefault(n.split("_")[0], []).append(n)
with open(os.path.join(ROOT, "rocq", "_CoqProject"), "w") as h:
    h.write("-Q theories Verif\n")
    for f in files:
        h.write("theories/%s\n" % f)
man = []
for line in open(os.path.join(ROOT, "properties.jsonl")):
    pid = json.loads(line)["id"]
    st = STATUS.get(pid)
    ths = claims.get(pid, [])
    if st is None or not ths:
        print("no claim for", pid)
        continue
    man.append({"property": pid, "status": st[0], "theorems": ths, "note": st[1]})
for pid in claims:
    if pid not in [m["property"] for m in man]:
        print("theorems without property:", pid)
json.dump({"claims": man}, open(os.path.join(ROOT, "MANIFEST.json"), "w"), indent=1)
