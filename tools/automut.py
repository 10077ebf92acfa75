#!/usr/bin/env python3
"""Lists systematic small edits of the definitions of the model, in a random order, for mutate.py.

usage: automut.py seed [file...] > mutations.jsonl
"""
import json, random, re, sys, glob, os

ROOT = os.environ.get("MUT_SRC", "/verif/rocq") + "/theories/"
SWAPS = [(r"<\?", "<=?"), (r"<=\?", "<?"), (r"(?<![<:])=\?", "<=?"), (r"&&", "||"), (r"\|\|", "&&"), (r"\btrue\b", "false"), (r"\bfalse\b", "true"),
         (r" \+ ", " - "), (r" - ", " + "), (r"\bnegb ", "id "), (r"\bmin\b", "max"), (r"\bmax\b", "min"), (r"\bfst\b", "snd"), (r"\bsnd\b", "fst"),
         (r"\b0\b", "1"), (r"\b1\b", "2"), (r"\b2\b", "3"), (r"\b1\b", "0"), (r"\bS ([a-z]\w*)", r"\1"), (r"\bNat\.pred\b", "id"),
         (r"\bfirstn\b", "skipn"), (r"\bskipn\b", "firstn"), (r"\bLeft\b", "Right"), (r"\bRight\b", "Left"), (r"\bCenter\b", "Left"), (r"\brev ", "id "),
         (r"\bNone\b", "(Some 0)"), (r"\bleft_margin\b", "right_margin"), (r"\bright_margin\b", "left_margin"), (r"\bfg\b", "bg"), (r"\bbg\b", "fg"),
         (r"\bforallb\b", "existsb"), (r"\bexistsb\b", "forallb"), (r"\bRet (\w+)", "Panic"), (r"\ba_left\b", "a_top"), (r"\ba_width\b", "a_height"), (r"\ba_height\b", "a_width"),
         (r"\bhead_ok\b", "tail_ok"), (r"\bPanic\b", "(Ret tt)"), (r" / ", " * "), (r" \* ", " + "), (r"\blength\b", "S (length"), (r"\bif\b", "if negb")]

def blank_comments(s):
    out, depth, i = [], 0, 0
    while i < len(s):
        if s.startswith("(*", i): depth += 1; out.append("  "); i += 2; continue
        if s.startswith("*)", i) and depth: depth -= 1; out.append("  "); i += 2; continue
        out.append(s[i] if depth == 0 or s[i] == "\n" else " "); i += 1
    return "".join(out)

def context(s, a, b):
    """the smallest text around s[a:b], inside its line or more, which is there only once"""
    la = s.rfind("\n", 0, a) + 1
    lb = s.find("\n", b); lb = len(s) if lb < 0 else lb
    for k in (0, 10, 20, 40, 80, 400):
        x, y = max(la, a - k), min(lb, b + k)
        if s.count(s[x:y]) == 1: return x, y
    x, y = la, lb
    while s.count(s[x:y]) != 1 and x > 0: x = s.rfind("\n", 0, x - 1) + 1
    return x, y

def main():
    random.seed(int(sys.argv[1]))
    fs = sys.argv[2:] or sorted(os.path.basename(f) for f in glob.glob(ROOT + "M_*.v"))
    res = []
    for f in fs:
        s = open(ROOT + f).read()
        code = blank_comments(s)
        for m in re.finditer(r"(?m)^(Definition|Fixpoint) (\w+)(.*?)\.(?=\s*\n|\s*$)", code, re.S):
            body = code.find(":=", m.start())
            if body < 0 or body > m.end(): continue
            for pat, rep in SWAPS:
                for h in re.finditer(pat, code[body:m.end()]):
                    a, b = body + h.start(), body + h.end()
                    if rep.startswith("S (length") or rep == "if negb":
                        if rep == "if negb":
                            t = re.compile(r"\bthen\b").search(code, b)
                            if not t or "if" in code[b:t.start()].split(): continue
                            new = "if negb (" + s[b:t.start()] + ") "; b = t.start()
                        else: continue
                    else: new = h.expand(rep)
                    x, y = context(s, a, b)
                    if s.count(s[x:y]) != 1: continue
                    res.append({"file": f, "definition": m.group(2), "old": s[x:y], "new": s[x:a] + new + s[b:y],
                                "claim": "automatic edit of " + m.group(2)})
    random.shuffle(res)
    for r in res: print(json.dumps(r, ensure_ascii=False))

main()
