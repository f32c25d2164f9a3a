#!/usr/bin/env python3
"""Regenerates /verif/MANIFEST.json; checks that every named theorem exists."""
import json, os, re, glob, sys
root = os.path.join(os.path.dirname(os.path.abspath(__file__)), "..")
claims = []
def c(prop, status, theorems, note):
    claims.append(dict(property=prop, status=status, theorems=theorems.split(), note=note))

c("C01", "proved", "C01_no_clash", "any lower-casing function, any existing list")
c("C02", "proved", "C02_legal_characters", "")
c("C03", "partial", "C03_length_refuted C03_length_partial",
  "false as stated: reserved parts are escaped after clipping (witness of 317 characters); proved: the excess over 255 is at most the number of escaped parts")
c("C04", "proved", "C04_not_reserved C04_not_hidden", "")
c("C05", "proved", "C05_terminates C05_always_succeeds C05_empty_name_refuted",
  "the excluded empty name really raises IndexError")
c("C06", "proved", "C06_batch_distinct", "")

if __name__ == "__main__":
    exec(open(os.path.join(root, "tools", "claims_more.py")).read()) if os.path.exists(os.path.join(root, "tools", "claims_more.py")) else None
    text = "".join(open(f).read() for f in glob.glob(os.path.join(root, "rocq/theories/*.v")))
    have = set(re.findall(r"^\s*(?:Theorem|Lemma|Corollary)\s+(\w+)", text, re.M))
    props = [json.loads(l)["id"] for l in open(os.path.join(root, "properties.jsonl"))]
    bad = [t for x in claims for t in x["theorems"] if t not in have] + [x["property"] for x in claims if x["property"] not in props]
    if bad: print("UNKNOWN:", bad); sys.exit(1)
    seen = {x["property"] for x in claims}
    print("without claim:", [q for q in props if q not in seen])
    json.dump({"claims": claims}, open(os.path.join(root, "MANIFEST.json"), "w"), indent=1, ensure_ascii=False)
