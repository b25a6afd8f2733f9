#!/usr/bin/env python3
"""Test the theorems against a wrong program.

usage: mutate.py MUTATIONS.json ID...   (a build of /verif/rocq must exist; works in /tmp/mut)
A mutation: {"id", "file", "old", "new", "claim"}.  The edit is made in a scratch copy.  Everything that depends
on the edited file is recompiled.  A proof that fails is replaced by Admitted and recorded, so that one sees
every proof that breaks.  A property theorem counts as failed if its own proof breaks, or if Print Assumptions
shows that it depends on a proof that breaks, or if its statement or its file no longer compiles."""
import json, os, re, shutil, subprocess, sys, threading, time
SRC = os.environ.get("SRC", "/verif/rocq")
JOBS = int(os.environ.get("JOBS", "3"))
HEAD = re.compile(r"^\s*(?:Local |Global )?(Lemma|Theorem|Corollary|Example|Remark|Fact|Definition|Fixpoint|Record|Inductive|Ltac|Notation|Instance|Arguments|Section|End|Variables?|Hypothes[ei]s|Hypothesis|Let|Print|Import|From|Module|Existing|Proposition)\b", re.M)
LEM = {"Lemma", "Theorem", "Corollary", "Example", "Remark", "Fact", "Proposition"}

def strip_comments_keep(s):
    out, d, i = [], 0, 0
    while i < len(s):
        if s.startswith("(*", i): d += 1; out.append("  "); i += 2; continue
        if s.startswith("*)", i) and d: d -= 1; out.append("  "); i += 2; continue
        out.append(s[i] if d == 0 or s[i] == "\n" else " "); i += 1
    return "".join(out)

def coqc(d, f, timeout=200):
    p = subprocess.Popen(["coqc", "-time", "-Q", "theories", "Verif", "theories/%s.v" % f], cwd=d, stdout=subprocess.PIPE, stderr=subprocess.STDOUT, text=True, errors="replace")
    try: out, _ = p.communicate(timeout=timeout); to = False
    except subprocess.TimeoutExpired: p.kill(); out, _ = p.communicate(); to = True
    return p.returncode, out, to

def admit_at(s, pos):
    """replace the proof around byte position pos by Admitted; return (text, kind, name)"""
    c = strip_comments_keep(s)
    last = None
    for m in HEAD.finditer(c):
        if m.start() <= pos: last = m
        else: break
    if last is None: return s, None, "?"
    kind = last.group(1)
    rest = c[last.end():]
    nm = re.match(r"\s*([\w']+)", rest); name = nm.group(1) if nm else "?"
    if kind not in LEM: return s, "broken", kind + " " + name
    pr = re.compile(r"\bProof\b[^.]*\.").search(c, last.end())
    qe = re.compile(r"\b(Qed|Defined|Admitted)\.").search(c, last.end())
    if not pr or not qe or pr.start() > qe.start(): return s, "broken", kind + " " + name
    if pos < pr.start() or qe.group(1) == "Admitted": return s, "broken", kind + " " + name
    return s[:pr.start()] + "Proof. Admitted." + s[qe.end():], "admit", name

def main():
    muts = {m["id"]: m for m in json.load(open(sys.argv[1]))}
    files = [l.strip()[9:-2] for l in open(SRC + "/_CoqProject") if l.strip().endswith(".v")]
    dep = {}
    out = subprocess.run(["coqdep", "-Q", "theories", "Verif"] + ["theories/%s.v" % f for f in files], cwd=SRC, capture_output=True, text=True).stdout
    for l in out.splitlines():
        m = re.match(r"theories/(\w+)\.vo.*?: (.*)", l)
        if m: dep[m.group(1)] = [x for x in re.findall(r"theories/(\w+)\.vo\b", m.group(2)) if x != m.group(1)]
    for mid in sys.argv[2:]:
        m = muts[mid]; t0 = time.time()
        D = "/tmp/mut/" + mid
        shutil.rmtree(D, ignore_errors=True); os.makedirs(D)
        shutil.copytree(SRC + "/theories", D + "/theories", ignore=lambda d, ns: [n for n in ns if not (n.endswith(".v") or n.endswith(".vo"))])
        edits = m.get("edits") or [{"file": m["file"], "old": m["old"], "new": m["new"]}]
        for e in edits:
            p = "%s/theories/%s.v" % (D, e["file"]); s = open(p).read()
            assert s.count(e["old"]) == 1, (mid, "pattern occurs %d times" % s.count(e["old"]))
            open(p, "w").write(s.replace(e["old"], e["new"]))
        dirty = {e["file"] for e in edits}
        for f in files:
            if any(d in dirty for d in dep.get(f, [])): dirty.add(f)
        todo = [f for f in files if f in dirty]
        for f in todo:
            for x in (".vo",):
                try: os.remove("%s/theories/%s%s" % (D, f, x))
                except FileNotFoundError: pass
        failed, broken, done = [], {}, set()
        thms = {}
        lock = threading.Lock(); running = set()
        def work(f):
            p = "%s/theories/%s.v" % (D, f)
            if f.startswith("Prop_"):
                s = open(p).read()
                names = re.findall(r"^Theorem (C\d\d\w*)", s, re.M)
                s = re.sub(r"^Print Assumptions.*$", "", s, flags=re.M)
                open(p, "w").write(s)
            else: names = []
            while True:
                rc, o, to = coqc(D, f)
                if rc == 0: break
                em = None
                for em in re.finditer(r'line (\d+), characters (\d+)-(\d+):\s*\n\s*Error', o): pass
                s = open(p).read()
                if em:
                    lines = s.split("\n"); b = sum(len(x.encode()) + 1 for x in lines[:int(em.group(1)) - 1]) + int(em.group(2))
                else:
                    ts = re.findall(r"^Chars (\d+) - (\d+)", o, re.M); b = int(ts[-1][1]) + 2 if ts else 0
                pos = len(s.encode()[:b].decode(errors="ignore"))
                s2, kind, name = admit_at(s, pos)
                with lock:
                    if kind == "admit": failed.append((f, name + (" (timeout)" if to and not em else "")))
                    else: broken[f] = name
                if kind != "admit": break
                open(p, "w").write(s2)
            if names and f not in broken:
                q = D + "/theories/Q_%s.v" % f
                imps = "\n".join(l for l in re.findall(r"^(?:From|Import|Require)[^.]*(?:\.\w[^.]*)*\.\s*$", open(p).read(), re.M)[:0])
                open(q, "w").write("From Verif Require Import %s.\n" % f + "".join('Goal True. idtac "@@%s". Abort.\nPrint Assumptions %s.\n' % (n, n) for n in names))
                r = subprocess.run(["coqc", "-Q", "theories", "Verif", "theories/Q_%s.v" % f], cwd=D, capture_output=True, text=True)
                for part in r.stdout.split("@@")[1:]:
                    n = part.split("\n", 1)[0].strip(); thms[n] = part
        def loop(f):
            work(f)
            with lock: running.discard(f); done.add(f)
        pend = list(todo); ths = []
        while pend or running:
            with lock:
                ready = [f for f in pend if all((d not in dirty) or d in done for d in dep[f])]
                for f in ready:
                    if len(running) >= JOBS: break
                    pend.remove(f)
                    if any(d in broken for d in dep[f]): broken[f] = "depends on " + ", ".join(d for d in dep[f] if d in broken); done.add(f); continue
                    running.add(f); t = threading.Thread(target=loop, args=(f,)); t.start(); ths.append(t)
            time.sleep(0.1)
        for t in ths: t.join()
        admitted = {n.split(" ")[0] for _, n in failed}
        direct, viadep = [], []
        alive = []
        for f in todo:
            if not f.startswith("Prop_"): continue
            for n in re.findall(r"^Theorem (C\d\d\w*)", open("%s/theories/%s.v" % (SRC, f)).read(), re.M):
                if f in broken: viadep.append(n + "*")
                elif n in admitted: direct.append(n)
                elif n in thms:
                    used = [a for a in admitted if re.search(r"^%s\b|\.%s\b" % (re.escape(a), re.escape(a)), thms[n], re.M)]
                    (viadep if used else alive).append(n)
                else: viadep.append(n + "?")
        rec = {"id": mid, "edits": edits, "claim": m["claim"], "broken_proofs": ["%s.%s" % x for x in failed], "broken_files": broken, "failed_directly": direct, "failed_via": viadep, "still_proved": alive, "seconds": round(time.time() - t0)}
        json.dump(rec, open("/tmp/mut/%s.json" % mid, "w"), indent=1)
        print(mid, "| claim:", m["claim"], "\n   proofs broken:", ["%s.%s" % x for x in failed][:12], len(failed), "\n   files broken:", broken, "\n   direct:", direct, "\n   via:", sorted({x for x in viadep}), "\n   alive:", len(alive), rec["seconds"], "s", flush=True)
        shutil.rmtree(D, ignore_errors=True)
main()
