#!/usr/bin/env python3
"""Rebuild a scratch copy of the model with an edit and report which property
theorems are lost.  A broken proof is replaced by an open one in the scratch
copy, so that everything depending on it shows up in Print Assumptions.

usage: mutate.py MUTATIONS.json [first [last]]
each entry: {file, definition, old, new, edit, breaks, [only]}
with [only], just these files and what they need are rebuilt
"""
import json, os, re, shutil, subprocess, sys
SRC = "/verif/rocq"
DST = f"/tmp/mut{os.getpid()}"
SNAP = DST + "_src"   # snapshot, so that work can go on meanwhile
OPEN = "Proof. Admit" + "ted."

def files():
    out = []
    for l in open(SRC + "/_CoqProject"):
        l = l.strip()
        if l.endswith(".v"):
            out.append(os.path.basename(l)[:-2])
    return out

def deps(fs):
    d = {}
    for f in fs:
        t = open(f"{SRC}/theories/{f}.v").read()
        r = set()
        for m in re.finditer(r"From Verif Require (?:Import|Export)?([^.]*)\.", t):
            r |= set(m.group(1).split())
        d[f] = r & set(fs)
    return d

def ordered(fs, d):
    """the files, each after those it needs"""
    out = []
    def visit(f):
        if f not in out:
            for g in sorted(d[f], key=fs.index):
                visit(g)
            out.append(f)
    for f in fs:
        visit(f)
    return out

def affected(fs, d, start):
    s = {start}
    for f in fs:
        if d[f] & s:
            s.add(f)
    return [f for f in fs if f in s]

def needed(d, only):
    s = set()
    todo = list(only)
    while todo:
        f = todo.pop()
        if f not in s:
            s.add(f)
            todo += d[f]
    return s

HEAD = re.compile(r"^\s*(?:#\[[^\]]*\]\s*)?(?:Local |Global )?(Lemma|Theorem|Example|Corollary|Fact|Remark|Instance|Definition|Fixpoint)\s+([^\s:({\[]+)")

def opened(text, line):
    """open the proof around the given line; returns (text, name) or None"""
    L = text.split("\n")
    i = line - 1
    s = i
    while s >= 0 and not HEAD.match(L[s]):
        s -= 1
    if s < 0:
        return None
    name = HEAD.match(L[s]).group(2)
    pos = sum(len(x) + 1 for x in L[:s])
    p = re.compile(r"\bProof\b(?: using[^.]*)?\.").search(text, pos)
    q = re.compile(r"\b(Qed|Defined)\.").search(text, pos)
    if not p or not q or q.start() < p.start():
        return None
    endline = text[:q.end()].count("\n") + 1
    if endline < line or "Admit" + "ted" in text[p.start():q.end()]:
        return None
    new = text[:p.start()] + OPEN + "\n" * text[p.start():q.end()].count("\n") + text[q.end():]
    return new, name

def coqc(f):
    try:
        r = subprocess.run(["coqc", "-Q", ".", "Verif", f + ".v"], cwd=DST + "/theories", capture_output=True, text=True, timeout=1200)
    except subprocess.TimeoutExpired:
        return -9, "TIMEOUT"
    return r.returncode, r.stdout + r.stderr

def one(m, fs, d):
    shutil.rmtree(DST, ignore_errors=True)
    shutil.copytree(SNAP, DST + "/theories")
    path = f"{DST}/theories/{m['file']}.v"
    t = open(path).read()
    edits = m.get("edits") or [(m["old"], m["new"])]
    for old, new in edits:
        assert t.count(old) == 1, ("edit does not match once", m["definition"], t.count(old))
        t = t.replace(old, new)
    open(path, "w").write(t)
    broken, lost = [], []
    want = needed(d, m["only"]) if m.get("only") else set(fs)
    for f in [f for f in affected(fs, d, m["file"]) if f in want]:
        p = f"{DST}/theories/{f}.v"
        while True:
            rc, out = coqc(f)
            if rc == 0:
                break
            g = re.search(r'File "\./%s\.v", line (\d+)[^\n]*\n(Error|.*\nError)' % f, out)
            ls = [int(x) for x in re.findall(r'File "\./%s\.v", line (\d+)' % f, out)]
            text = open(p).read()
            r = opened(text, ls[-1]) if ls else None
            if r is None:
                return broken, lost, f"no rebuild: {f}: {out[-400:]}"
            text, name = r
            broken.append(name)
            open(p, "w").write(text)
        names = re.findall(r"^Print Assumptions (\w+)\.", open(p).read(), re.M)
        parts = re.findall(r"^(Closed under the global context|Axioms:(?:\n(?!Closed|Axioms:).*)*)", out, re.M)
        if names and len(parts) == len(names):
            for n, q in zip(names, parts):
                if not q.startswith("Closed") and any(re.search(r"\b%s\b" % re.escape(b), q) for b in broken):
                    lost.append(n)
                elif n in broken:
                    lost.append(n)
        elif names:
            lost.append(f"?{f}:{len(names)}/{len(parts)}")
        lost += [b for b in broken if b.startswith("C") and b[1:3].isdigit() and b not in lost and ("_case" in b) and False]
    return broken, lost, ""

def main():
    ms = json.load(open(sys.argv[1]))
    a = int(sys.argv[2]) if len(sys.argv) > 2 else 0
    b = int(sys.argv[3]) if len(sys.argv) > 3 else len(ms)
    fs = files()
    d = deps(fs)
    fs = ordered(fs, d)
    shutil.copytree(SRC + "/theories", SNAP)
    for i, m in enumerate(ms[a:b], a):
        broken, lost, err = one(m, fs, d)
        rec = {"definition": f"{m['file']}.v:{m['definition']}", "edit": m["edit"], "claim_broken": m["breaks"],
               "theorems_failed": lost, "proof_steps_failed": broken[:12], "theorems_tightened": m.get("tightened", [])}
        if err:
            rec["note"] = err
        print(i, json.dumps(rec), flush=True)
        with open("/tmp/mut_results.jsonl", "a") as o:
            o.write(json.dumps(rec) + "\n")
    shutil.rmtree(DST, ignore_errors=True)
    shutil.rmtree(SNAP, ignore_errors=True)
main()
