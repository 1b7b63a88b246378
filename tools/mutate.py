#!/usr/bin/env python3
"""Mutation experiments: applies each edit of tools/mutations.json (not yet in
seeded/LOG.jsonl) to a scratch copy of the model, rebuilds, and logs what failed."""
import json, os, re, shutil, subprocess, sys
V = "/verif"; W = "/tmp/mut"; SRC = "/tmp/mutsrc"  # a built checkout of the last commit
LOG = V + "/seeded/LOG.jsonl"
done = set()
if os.path.exists(LOG):
    for l in open(LOG):
        d = json.loads(l); done.add((d["definition"], d["edit"]))
muts = json.load(open(V + "/tools/mutations.json"))
subprocess.run("rm -rf %s && git clone -q %s %s && cd %s/rocq && coq_makefile -f _CoqProject -o Makefile >/dev/null && make -j3 >/dev/null 2>&1" % (SRC, V, SRC, SRC), shell=True, check=True)
def lemma_at(path, line):
    src = open(path).read().split("\n")[:line]
    for l in reversed(src):
        m = re.match(r"\s*(?:Local )?(?:Lemma|Theorem|Example|Corollary|Definition|Fixpoint)\s+([A-Za-z0-9_']+)", l)
        if m: return m.group(1)
    return "?"
for m in muts:
    key = (m["def"], m["edit"])
    if key in done: continue
    if os.path.exists(W): shutil.rmtree(W)
    subprocess.run(["cp", "-a", SRC + "/rocq", W], check=True)
    p = W + "/theories/" + m["file"]
    s = open(p).read()
    if s.count(m["old"]) != m.get("count", 1):
        print("BAD PATTERN", m["def"], m["edit"], s.count(m["old"])); continue
    open(p, "w").write(s.replace(m["old"], m["new"]))
    r = subprocess.run("cd %s && timeout 1500 make -k -j3 2>&1" % W, shell=True, capture_output=True, text=True)
    fails = []
    for mm in re.finditer(r'File "\./(theories/[^"]+)", line (\d+)[^\n]*\n(?:[^\n]*\n){0,1}?Error', r.stdout):
        fails.append(os.path.basename(mm.group(1))[:-2] + "." + lemma_at(W + "/" + mm.group(1), int(mm.group(2))))
    blocked = []
    for f in sorted(os.listdir(W + "/theories")):
        if f.startswith("P_") and f.endswith(".v"):
            vo = W + "/theories/" + f[:-2] + ".vo"
            ok = os.path.exists(vo) and subprocess.run("cd %s && make -q theories/%s.vo" % (W, f[:-2]), shell=True, capture_output=True).returncode == 0
            if not ok:
                th = re.findall(r"^Theorem\s+([A-Za-z0-9_']+)", open(W + "/theories/" + f).read(), re.M)
                blocked += [t for t in th if any(t.startswith(c) for c in m["claims"])]
    compiles = not [x for x in fails if x.split(".")[0] + ".v" == m["file"]]
    rec = {"definition": m["def"], "edit": m["edit"], "claim": m["claims"], "breaks": m["breaks"],
           "first_failures": fails, "theorems_failed": blocked, "tightened": m.get("tightened", []),
           "verdict": ("caught" if blocked else "NOT CAUGHT") if compiles else "edit does not typecheck"}
    print(rec["verdict"], m["def"], "|", m["edit"], fails, blocked, flush=True)
    if compiles:
        with open(LOG, "a") as f: f.write(json.dumps(rec) + "\n")
