#!/usr/bin/env python3
"""Seeded-bug testing of the theorems, in a scratch copy of /verif/rocq (never in place).

usage: seed.py MUTANTS.json [SCRATCH] [OUT.jsonl]
Each mutant is {"file": "M_X.v", "def": "name", "old": "...", "new": "...", "claim": "Cnn: ..."}.
The edit is applied, the project rebuilt; every proof that no longer checks is replaced by Admitted in the scratch copy and the
build repeated, until everything else compiles.  Then Print Assumptions tells which theorems depend on a proof that failed."""
import sys, os, re, json, subprocess, shutil, time
muts = json.load(open(sys.argv[1]))
scratch = sys.argv[2] if len(sys.argv) > 2 else "/tmp/seed"
out = sys.argv[3] if len(sys.argv) > 3 else "/tmp/seed_out.jsonl"
SRC = os.environ.get("SEED_SRC", "/verif/rocq")
def sync():
    subprocess.run(["rsync", "-a", "--delete", SRC + "/", scratch + "/"], check=True) if shutil.which("rsync") else (
        subprocess.run(["rm", "-rf", scratch]), subprocess.run(["cp", "-a", SRC, scratch], check=True))
WR = "/tmp/coqc_limited.sh"
open(WR, "w").write("#!/bin/bash\nulimit -v 5000000\nexec timeout 240 coqc \"$@\"\n"); os.chmod(WR, 0o755)
def enclosing(path, line):
    """the proof (start of Proof line, Qed line, name) around a line of a file"""
    L = open(path).read().split("\n")
    start = None
    for i in range(min(line, len(L)) - 1, -1, -1):
        m = re.match(r"\s*(?:Local |Global |#\[[^\]]*\]\s*)?(Lemma|Theorem|Corollary|Example|Fact|Remark|Proposition|Instance|Definition|Fixpoint|Inductive|Record)\s+([\w']+)", L[i])
        if m:
            start, kind, name = i, m.group(1), m.group(2); break
    if start is None or kind in ("Definition", "Fixpoint", "Inductive", "Record"): return None
    for j in range(start, len(L)):
        if re.search(r"\b(Qed|Defined|Admitted)\.", L[j]): break
    else: return None
    txt = "\n".join(L[start:j + 1])
    m = re.search(r"(?:(?<=\s)|^)Proof(\s+using[^.]*)?\.", txt)
    if not m: return None
    end = [x for x in re.finditer(r"\b(Qed|Defined|Admitted)\.", txt)][-1]
    new = txt[:m.start()] + "Admitted." + txt[end.end():]
    # keep the number of lines
    new += "\n" * (txt.count("\n") - new.count("\n"))
    return name, kind, "\n".join(L[:start]) + ("\n" if start else "") + new + ("\n" + "\n".join(L[j + 1:]) if j + 1 < len(L) else "")
def run(m):
    sync()
    p = f"{scratch}/theories/{m['file']}"
    s = open(p).read()
    if s.count(m["old"]) < 1: return {"error": "pattern not found"}
    if s.count(m["old"]) > 1 and not m.get("nth"): return {"error": f"pattern found {s.count(m['old'])} times"}
    open(p, "w").write(s.replace(m["old"], m["new"]))
    t0 = time.time()
    failed = []; note = ""
    for it in range(40):
        r = subprocess.run(f"cd {scratch} && coq_makefile -f _CoqProject -o Makefile >/dev/null && make -k -j3 COQC={WR}", shell=True, capture_output=True, text=True)
        txt = r.stdout + r.stderr
        errs = re.findall(r'File "\./(theories/\w+\.v)", line (\d+), characters[^\n]*\n((?:.*\n){0,6})', txt)
        errs = [(f, int(l), b) for f, l, b in errs if "Error" in b]
        tmo = re.findall(r"\*\*\* \[Makefile[^\]]*: (theories/\w+)\.vo\] Error (\d+)", txt)
        if r.returncode == 0: break
        did = False
        for f, l, b in errs:
            e = enclosing(f"{scratch}/{f}", l)
            if e is None: note = f"definition-level failure {f}:{l}: {b.strip()[:200]}"; continue
            name, kind, new = e
            if f"{f}:{name}" in failed: note = f"stuck at {f}:{name}"; continue
            open(f"{scratch}/{f}", "w").write(new); failed.append(f"{f}:{name}"); did = True
        if not did:
            note = note or ("stuck: " + str(tmo) + txt[-300:]); break
        if time.time() - t0 > 2400: note = "time"; break
    # theorems depending on a failed proof
    mt = os.path.getmtime(p)
    T = [f for f in sorted(os.listdir(f"{scratch}/theories")) if f.startswith("T_") and f.endswith(".vo") and os.path.getmtime(f"{scratch}/theories/{f}") >= mt]
    dep = []
    if T and failed:
        q = ["From Verif Require " + " ".join(t[:-3] for t in T) + "."]; names = []
        for t in T:
            for kind, nm in re.findall(r"^(Theorem|Example)\s+([\w']+)", open(f"{scratch}/theories/{t[:-1]}").read(), re.M):
                names.append((t[:-3], nm)); q += [f"Print Assumptions {t[:-3]}.{nm}."]
        open(f"{scratch}/Q.v", "w").write("\n".join(q))
        rr = subprocess.run(f"cd {scratch} && timeout 600 coqc -Q theories Verif Q.v", shell=True, capture_output=True, text=True)
        heads = re.findall(r"^(Closed under|Axioms:)", rr.stdout, re.M)
        dep = [names[i][1] for i, h in enumerate(heads) if h == "Axioms:"]
        if len(heads) != len(names): note += f" Q: {len(heads)} answers for {len(names)} names"
        if rr.returncode: note += " Q: " + rr.stderr[-200:]
    missing = [t for t in sorted(os.listdir(f"{scratch}/theories")) if t.startswith("T_") and t.endswith(".v") and not os.path.exists(f"{scratch}/theories/{t}o")]
    return {"failed_proofs": failed, "theorems_failed": dep, "unbuilt": missing, "note": note, "secs": int(time.time() - t0)}
done = set()
if os.path.exists(out):
    for l in open(out):
        d = json.loads(l); done.add((d["file"], d["old"], d["new"]))
for m in muts:
    if (m["file"], m["old"], m["new"]) in done: continue
    r = run(m)
    rec = dict(m); rec.update(r)
    open(out, "a").write(json.dumps(rec) + "\n")
    print(m["file"], m["def"], "->", len(r.get("theorems_failed", [])), "thms;", r.get("theorems_failed", [])[:6], r.get("unbuilt"), r.get("note"), r.get("error", ""), r.get("secs"), flush=True)
