#!/usr/bin/env python3
"""Search for weak spots: small random edits of model definitions after which every proof still compiles.

usage: automut.py SEED PER_DEFINITION OUT [FILE...]   (SRC: a complete build; works in /tmp/auto)
Each edit is made in a scratch copy; the dependent files are recompiled in order and the first error ends the trial
("killed").  Only edits that survive everything are of interest: the definition is not pinned down by any theorem, or
the edit does not change the behaviour."""
import json, os, random, re, subprocess, sys, time
SRC = os.environ.get("SRC", "/verif/rocq")
SWAPS = [("Nat.ltb", "Nat.leb"), ("Nat.leb", "Nat.ltb"), ("Z.ltb", "Z.leb"), ("Z.leb", "Z.ltb"), ("Rltb", "Rleb"), ("Rleb", "Rltb"), ("xltb", "xleb"), ("xleb", "xltb"),
  ("true", "false"), ("false", "true"), ("fst", "snd"), ("snd", "fst"), ("firstn", "skipn"), ("skipn", "firstn"),
  ("xadd", "xsub"), ("xsub", "xadd"), ("xmul", "xdiv"), ("xdiv", "xmul"), ("xsq", "id"), ("xsqrt", "id"),
  ("RuntimeError", "ValueError"), ("ValueError", "RuntimeError"), ("KeyError", "IndexError"), ("IndexError", "KeyError"), ("TypeError", "ValueError"), ("AttributeError", "TypeError"), ("ZeroDivisionError", "ValueError"), ("LinAlgError", "ValueError"),
  ("0", "1"), ("1", "0"), ("1", "2"), ("2", "1"), ("negb", "id"), ("PInf", "NInf"), ("NInf", "PInf"), ("NaN", "Fin 0"), ("Some", "(fun _ => None)")]
OPS = [(" + ", " - "), (" - ", " + "), (" * ", " + "), (" / ", " * "), (" && ", " || "), (" || ", " && "), (" ++ ", " :: "), ("<?", "<=?"), ("<=?", "<?")]

def blank_comments(s):
    out, d, i = [], 0, 0
    while i < len(s):
        if s.startswith("(*", i): d += 1; out.append("  "); i += 2; continue
        if s.startswith("*)", i) and d: d -= 1; out.append("  "); i += 2; continue
        out.append(s[i] if d == 0 or s[i] == "\n" else " "); i += 1
    return "".join(out)

def candidates(f):
    s = open("%s/theories/%s.v" % (SRC, f)).read(); c = blank_comments(s)
    heads = [m for m in re.finditer(r"^\s*(?:Local |Global )?(Definition|Fixpoint|Record|Inductive|Notation|Section|End|Variable|Hypothesis|Arguments|Lemma|Theorem|Ltac|Local|Import|From|Infix|Reserved|Open|Instance|Example)\b", c, re.M)]
    res = {}
    for i, h in enumerate(heads):
        if h.group(1) not in ("Definition", "Fixpoint"): continue
        end = heads[i + 1].start() if i + 1 < len(heads) else len(c)
        nm = re.match(r"\s*([\w']+)", c[h.end():]).group(1)
        b = c.find(":=", h.end(), end)
        if b < 0: continue
        l = []
        for a, n in SWAPS:
            for m in re.finditer(r"(?<![\w'.])" + re.escape(a) + r"(?![\w'.])", c[b:end]): l.append((b + m.start(), len(a), n))
        for a, n in OPS:
            for m in re.finditer(re.escape(a), c[b:end]): l.append((b + m.start(), len(a), n))
        # drop a statement of a do-block
        for m in re.finditer(r"\b_ <(?:-|~|--|:-|==|\+) ([^;]*?) ;;;?", c[b:end]): l.append((b + m.start(), m.end() - m.start(), ""))
        # swap two arguments that are identifiers
        for m in re.finditer(r"\b([a-z]\w*) ([a-z]\w*) ([a-z]\w*)\b", c[b:end]):
            x, y, z = m.groups()
            if y != z and not {x, y, z} & {"match", "with", "end", "let", "in", "if", "then", "else", "fun", "as", "return", "forall", "fix"}:
                l.append((b + m.start(), m.end() - m.start(), "%s %s %s" % (x, z, y)))
        if l: res[nm] = l
    return s, res

def coqc(d, f, timeout=300):
    for e in ("vo", "vos", "vok", "glob"):
        try: os.unlink("%s/theories/%s.%s" % (d, f, e))
        except FileNotFoundError: pass
    try: p = subprocess.run(["coqc", "-q", "-Q", "theories", "Verif", "theories/%s.v" % f], cwd=d, capture_output=True, text=True, errors="replace", timeout=timeout)
    except subprocess.TimeoutExpired: return 1, "timeout"
    return p.returncode, p.stdout[-3000:] + p.stderr[-3000:]

def main():
    seed, per, outf = int(sys.argv[1]), int(sys.argv[2]), sys.argv[3]
    files = [l.strip()[9:-2] for l in open(SRC + "/_CoqProject") if l.strip().endswith(".v")]
    dep = {}
    out = subprocess.run(["coqdep", "-Q", "theories", "Verif"] + ["theories/%s.v" % f for f in files], cwd=SRC, capture_output=True, text=True).stdout
    for l in out.splitlines():
        m = re.match(r"theories/(\w+)\.vo.*?: (.*)", l)
        if m: dep[m.group(1)] = [x for x in re.findall(r"theories/(\w+)\.vo\b", m.group(2)) if x != m.group(1)]
    models = sys.argv[4:] or [f for f in files if f.startswith("Model_")]
    D = "/tmp/auto/w%s" % os.path.basename(outf)
    subprocess.run(["rm", "-rf", D]); os.makedirs(D + "/theories")
    pristine = {}
    for f in files:
        for e in ("v", "vo"): os.link("%s/theories/%s.%s" % (SRC, f, e), "%s/theories/%s.%s" % (D, f, e))
    rnd = random.Random(seed); todo = []
    for f in models:
        s, res = candidates(f)
        for nm, l in res.items():
            for c in rnd.sample(l, min(per, len(l))): todo.append((f, nm, s, c))
    print(len(todo), "trials", flush=True)
    seen = set(json.loads(l)["key"] for l in open(outf)) if os.path.exists(outf) else set()
    for f, nm, s, (pos, ln, new) in todo:
        key = "%s.%s@%d:%s" % (f, nm, pos, new)
        if key in seen: continue
        t0 = time.time(); touched = [f]
        p = "%s/theories/%s.v" % (D, f); os.unlink(p); open(p, "w").write(s[:pos] + new + s[pos + ln:])
        rc, o = coqc(D, f)
        verdict, where = "invalid", ""
        if rc == 0:
            verdict = "SURVIVED"; dirty = {f}
            for g in files:
                if g in dirty or not (set(dep.get(g, [])) & dirty): continue
                dirty.add(g); touched.append(g)
                rc, o = coqc(D, g)
                if rc:
                    m = re.search(r"line (\d+)", o); where = g + (":" + m.group(1) if m else ":" + o[:40]); verdict = "killed"; break
        for g in touched:
            for e in ("v", "vo", "vos", "vok", "glob"):
                q = "%s/theories/%s.%s" % (D, g, e)
                if os.path.exists(q): os.unlink(q)
                if e in ("v", "vo"): os.link("%s/theories/%s.%s" % (SRC, g, e), q)
        line0 = s.rfind("\n", 0, pos) + 1; line1 = s.find("\n", pos + ln)
        rec = {"key": key, "verdict": verdict, "where": where, "old": s[line0:line1], "new": s[line0:pos] + new + s[pos + ln:line1], "sec": round(time.time() - t0)}
        open(outf, "a").write(json.dumps(rec) + "\n")
main()
