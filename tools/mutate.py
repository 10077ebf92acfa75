#!/usr/bin/env python3
"""Mutation testing of the theorems, in a scratch copy.

usage: mutate.py mutations.jsonl out.jsonl [scratch_dir [first]]
With "first", a mutation isn't followed any more once a theorem of a property has failed.

Each line of mutations.jsonl: {"file": "M_X.v", "definition": "...", "old": "...", "new": "...", "claim": "..."}
The edit is applied in the scratch copy, the dependent files are recompiled; each failing proof is
replaced by Admitted (in the scratch copy only) so that all the failing theorems can be listed, those failing directly
and those depending on a failing lemma (as told by Print Assumptions).
"""
import json, os, re, shutil, subprocess, sys

SRC = os.environ.get("MUT_SRC", "/verif/rocq")
DECL = re.compile(r"^\s*(Lemma|Theorem|Example|Corollary|Fact)\s+(\w+)", re.M)

def files():
    return [l.strip()[len("theories/"):-2] for l in open(SRC + "/_CoqProject") if l.strip().endswith(".v")]

def deps(fs, root):
    d = {}
    for f in fs:
        s = open(f"{root}/theories/{f}.v").read()
        req = set()
        for m in re.finditer(r"From Verif Require\s+(?:Import\s+|Export\s+)?([^.]*)\.", s):
            req |= set(m.group(1).split())
        d[f] = req
    return d

def affected(fs, d, start):
    """the files depending on start, each one after the files it needs, the small ones first"""
    res = {start}
    while True:
        more = {f for f in fs if d[f] & res} - res
        if not more: break
        res |= more
    order, left = [], set(res)
    while left:
        f = min((f for f in left if not d[f] & left), key=lambda f: (os.path.getsize(f"{SRC}/theories/{f}.v"), f))
        order.append(f)
        left.remove(f)
    return order

def coqc(root, f):
    p = subprocess.run(["timeout", "300" if FIRST else "900", "coqc", "-Q", "theories", "Verif", f"theories/{f}.v"], cwd=root,
                       stdout=subprocess.PIPE, stderr=subprocess.STDOUT, text=True)
    return p.returncode, p.stdout

def admit(root, f, line):
    """replace the proof enclosing the line by Admitted; gives the name of the lemma"""
    path = f"{root}/theories/{f}.v"
    s = open(path).read()
    pos = sum(len(l) for l in s.splitlines(True)[:line - 1])
    eol = s.find("\n", pos)
    eol = len(s) if eol < 0 else eol
    best = None
    for m in DECL.finditer(s):
        if m.start() <= eol: best = m
        else: break
    if best is None: return None
    pr = re.compile(r"\bProof\b[^.]*\.").search(s, best.end())
    if not pr: return None
    q = re.compile(r"\b(Qed|Defined)\.").search(s, pr.end())
    if not q or q.end() < pos: return None
    stmt_end = pr.start()
    if pos < best.start(): return None
    s2 = s[:pr.start()] + "Proof. Admitted." + s[q.end():]
    if s2 == s: return None
    open(path, "w").write(s2)
    return best.group(2)

THEOREMS = {n for f in files() for n in re.findall(r"(?m)^Theorem (C\d\d\w*)", open(f"{SRC}/theories/{f}.v").read())}
FIRST = len(sys.argv) > 4 and sys.argv[4] == "first"

def killed(names):
    """is there a failing theorem which isn't only an example or a refutation"""
    return any(n in THEOREMS and not n.endswith("_refuted") for n in names)

def run(mut, root):
    if os.path.exists(root): shutil.rmtree(root)
    shutil.copytree(SRC, root, ignore=shutil.ignore_patterns("*.glob", ".*", "Makefile*"))
    fs = files()
    path = f"{root}/theories/{mut['file']}"
    s = open(path).read()
    if s.count(mut["old"]) != 1:
        return {"error": f"old text found {s.count(mut['old'])} times"}
    open(path, "w").write(s.replace(mut["old"], mut["new"]))
    todo = affected(fs, deps(fs, root), mut["file"][:-2])
    failed, broken = [], None
    pfail = set()
    for f in todo:
        while True:
            rc, out = coqc(root, f)
            if rc == 0:
                if f.startswith("P_"):
                    # associate the outputs of Print Assumptions with the theorems
                    src = open(f"{root}/theories/{f}.v").read()
                    names = re.findall(r"^Print Assumptions (\w+)\.", src, re.M)
                    blocks = re.split(r"(?m)^(?=Axioms:|Closed under the global context)", out)
                    blocks = [b for b in blocks if b.startswith(("Axioms:", "Closed under"))]
                    for n, b in zip(names, blocks):
                        if any(re.search(r"(?m)^%s\b" % re.escape(x.split('.')[-1]), b) for x in failed): pfail.add(n)
                break
            m = re.search(r'line (\d+), characters', out)
            name = admit(root, f, int(m.group(1))) if m else None
            if name is None:
                broken = f"{f}: {out[-400:]}"
                break
            failed.append(name)
            if f.startswith("P_"): pfail.add(name)
            if FIRST and killed(pfail): break
        if broken or FIRST and killed(pfail): break
    return {"failed": failed, "pfail": sorted(pfail), "broken": broken}

def main():
    muts = [json.loads(l) for l in open(sys.argv[1]) if l.strip()]
    root = sys.argv[3] if len(sys.argv) > 3 else "/tmp/mut/scratch"
    done = set()
    if os.path.exists(sys.argv[2]):
        for l in open(sys.argv[2]):
            r = json.loads(l); done.add((r["file"], r["old"], r["new"]))
    for m in muts:
        if (m["file"], m["old"], m["new"]) in done: continue
        r = run(m, root)
        with open(sys.argv[2], "a") as o: o.write(json.dumps({**m, **r}, ensure_ascii=False) + "\n")
        print(m["definition"], "->", r.get("error") or r.get("broken") or (r["pfail"] or "SURVIVED"), flush=True)

main()
