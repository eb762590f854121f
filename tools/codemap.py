#!/usr/bin/env python3
"""Write section "## 6. Which code is modelled" of DESIGN.md.

For every function of /repo/pycomlink (read as text) the definitions of
rocq/theories/*_model.v whose comment cites lines of that function.
"""
import ast, glob, os, re, sys

repo = "/repo/pycomlink"
here = os.path.dirname(os.path.dirname(os.path.abspath(__file__)))

funcs = []  # file, qualified name, first, last
for path in sorted(glob.glob(repo + "/**/*.py", recursive=True)):
    rel = os.path.relpath(path, repo)
    if rel.startswith("tests") or "/tests/" in rel:
        continue
    tree = ast.parse(open(path).read())
    def walk(node, pre):
        for c in ast.iter_child_nodes(node):
            if isinstance(c, (ast.FunctionDef, ast.ClassDef)):
                q = pre + c.name
                if isinstance(c, ast.FunctionDef):
                    funcs.append((rel, q, c.lineno, c.end_lineno))
                walk(c, q + ".")
    walk(tree, "")

byname = {}
for f in {x[0] for x in funcs}:
    byname.setdefault(os.path.basename(f), []).append(f)

# two directories have files of the same name
hint = {"TfInfer_model": "tensorflow_utils", "TfWrap_model": "tensorflow_utils", "TorchInfer_model": "pytorch_utils"}
hits = {}
unresolved = []
for vf in sorted(glob.glob(here + "/rocq/theories/*.v")):
    if "_model" not in vf:
        continue
    src = open(vf).read()
    mod = os.path.basename(vf)[:-2]
    head = src[: src.find("*)")]
    default = re.findall(r"([\w/]+\.py)", head)
    pos = 0
    cur = default[0] if default else None
    for m in re.finditer(r"\(\*\*(.*?)\*\)\s*((?:Local |Program )?(?:Definition|Fixpoint|Inductive|Record|Notation|CoFixpoint)\s+\"?(\w+))?", src, re.S):
        text, name = m.group(1), m.group(3)
        if not name:
            continue
        for c in re.finditer(r"([\w/]+\.py)[:\s]+(?:lines? )?((?:\d+(?:-\d+)?(?:, | and )?)+)|\blines? (\d+(?:-\d+)?(?:, \d+(?:-\d+)?)*)", text):
            if c.group(1):
                cur = c.group(1)
            nums = c.group(2) or c.group(3)
            if cur is None:
                continue
            cands = [f for f in byname.get(os.path.basename(cur), []) if f.endswith(cur.replace("/repo/pycomlink/", ""))] or byname.get(os.path.basename(cur), [])
            if mod in hint:
                cands = [f for f in cands if hint[mod] in f] or cands
            for r in re.findall(r"\d+(?:-\d+)?", nums):
                a, b = (r.split("-") + [r])[:2]
                a, b = int(a), int(b)
                for f, q, lo, hi in funcs:
                    if f in cands and not (b < lo or a > hi):
                        hits.setdefault((f, q), [])
                        d = mod + "." + name
                        if d not in hits[(f, q)]:
                            hits[(f, q)].append(d)

notes = {}
nf = here + "/tools/codemap_notes.txt"
if os.path.exists(nf):
    for line in open(nf):
        line = line.strip()
        if line and not line.startswith("#"):
            k, v = line.split(" | ", 1)
            notes[k] = v

out = ["## 6. Which code is modelled", "",
       "Generated by `tools/codemap.py` from the line citations in the model files.", "",
       "| function | lines | model definitions / why not |", "|---|---|---|"]
missing = []
for f, q, lo, hi in funcs:
    h = hits.get((f, q), [])
    n = notes.get(f + ":" + q, "")
    if not h and not n:
        missing.append(f"{f}:{q} {lo}-{hi}")
        n = "not modelled"
    cell = ", ".join(f"`{x}`" for x in h[:8]) + (" ..." if len(h) > 8 else "")
    cell = (cell + ". " if cell and n else cell) + n
    out.append(f"| {f}:{q} | {lo}-{hi} | {cell} |")
sec = "\n".join(out) + "\n"

p = here + "/DESIGN.md"
s = open(p).read()
a = s.find("## 6. Which code is modelled")
if a >= 0:
    b = s.find("\n## ", a + 5)
    s = s[:a] + sec + (s[b:] if b >= 0 else "")
else:
    s = s.rstrip() + "\n\n" + sec
open(p, "w").write(s)
print("missing:")
print("\n".join(missing))
