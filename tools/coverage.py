#!/usr/bin/env python3
"""Which functions of /repo/templatefitter are cited by no model file?"""
import ast, glob, re, os
cites = {}
for f in glob.glob("/verif/rocq/theories/Model_*.v"):
    s = open(f).read()
    for com in re.findall(r"\(\*.*?\*\)", s, re.S):
        cur = None
        for m in re.finditer(r"([\w/]+\.py)(?::)?|(?<![\w.])(\d+)(?:-(\d+))?(?![\w.])", com):
            if m.group(1): cur = os.path.basename(m.group(1))
            elif cur: cites.setdefault(cur, []).append((int(m.group(2)), int(m.group(3) or m.group(2)), os.path.basename(f)))
for f in sorted(glob.glob("/repo/templatefitter/**/*.py", recursive=True)):
    t = ast.parse(open(f).read()); b = os.path.basename(f)
    for n in ast.walk(t):
        for c in getattr(n, "body", []) if isinstance(n, (ast.Module, ast.ClassDef)) else []:
            if isinstance(c, ast.FunctionDef):
                a, e = c.lineno, c.end_lineno
                if c.decorator_list: a = min(d.lineno for d in c.decorator_list)
                if not any(x <= e and y >= a for x, y, _ in cites.get(b, [])):
                    print(b, getattr(n, "name", ""), c.name, a, e)
