#!/usr/bin/env python3
"""Try one wrong program: copy the development to a scratch directory, apply an
edit to the model, rebuild, and report which property theorems no longer hold.

A proof that breaks is replaced by Admitted in the scratch copy so that the
build can go on; at the end Print Assumptions tells which property theorems rest
on a broken lemma.  Usage: seed.py spec.json  (a list of objects with keys
definition, file, old, new, edit, breaks, and optionally targets, the property
files to rebuild); prints one JSON line per object."""
import json, os, re, subprocess, sys, shutil
SRC = os.environ.get("SEED_SRC", "/verif/rocq")
DST = os.environ.get("SEED_DIR", "/tmp/seed")
def sh(cmd, timeout):
    try:
        p = subprocess.run(cmd, shell=True, cwd=DST, capture_output=True, text=True, timeout=timeout)
        return p.stdout + p.stderr
    except subprocess.TimeoutExpired as e:
        return "TIMEOUT"
START = re.compile(r"^\s*(?:Local |Global |#\[.*\] )*(Lemma|Theorem|Example|Corollary|Fact|Remark|Instance|Definition|Fixpoint)\s+([\w']+)", re.M)
def cut(path, line):
    src = open(path).read()
    lines = src.split("\n")
    off = sum(len(l) + 1 for l in lines[:line - 1])
    st = None
    for m in START.finditer(src):
        if m.start() <= off + len(lines[line-1]): st = m
        else: break
    if st is None: return None
    pr = src.find("Proof", st.start())
    ends = [x for x in (src.find("Qed.", st.start()), src.find("Defined.", st.start())) if x >= 0]
    end = min(ends) if ends else -1
    if pr < 0 or end < 0 or pr > end or st.group(1) in ("Definition", "Fixpoint"): return None
    nxt = START.search(src, st.end())
    if nxt and nxt.start() < pr: return None
    if not (off + len(lines[line-1]) >= pr): return None   # error in the statement
    e2 = src.find(".", end) + 1
    src = src[:pr] + "Proof. Admitted." + src[e2:]
    open(path, "w").write(src)
    return st.group(2)
def stuck(mod):
    """The line at which coqc of this file runs out of time or memory."""
    out = sh(f"ulimit -v 8000000; timeout 300 coqc -time -Q theories Verif theories/{mod}.v", 400)
    last = 0
    for x in re.finditer(r"^Chars \d+ - (\d+) \[", out, re.M): last = int(x.group(1))
    src = open(f"{DST}/theories/{mod}.v", "rb").read()
    rest = src[last:]
    return (src[:last] + rest[:len(rest) - len(rest.lstrip())]).count(b"\n") + 1
def run(m):
    subprocess.run(f"rm -rf {DST}; cp -a {SRC} {DST}", shell=True, check=True)
    f = f"{DST}/theories/{m['file']}"
    src = open(f).read()
    if src.count(m["old"]) != m.get("count", 1):
        return dict(error=f"pattern occurs {src.count(m['old'])} times")
    src = src.replace(m["old"], m["new"])
    for old, new in m.get("also", []):
        if src.count(old) != 1: return dict(error=f"pattern occurs {src.count(old)} times")
        src = src.replace(old, new)
    open(f, "w").write(src)
    broken, notes = [], []
    sh("coq_makefile -f _CoqProject -o Makefile", 60)
    for it in range(400):
        what = " ".join(f"theories/{x}.vo" for x in m.get("targets", []))
        out = sh(f"make -k -j2 COQC='timeout 400 coqc' {what} 2>&1", 3000)
        errs = {}
        for x in re.finditer(r'File "\./theories/(\w+)\.v", line (\d+), characters [\d-]+:\nError', out):
            errs.setdefault(x.group(1), int(x.group(2)))
        for x in re.finditer(r"theories/(\w+)\.vo\] (?:Error 1(?:24|37|43)|Terminated|Killed)", out):
            if x.group(1) not in errs:
                n = stuck(x.group(1))
                if n: errs[x.group(1)] = n
        if not errs:
            if "Error" in out: notes.append("stopped: " + out[out.find("Error")-100:][:300].replace("\n", " "))
            break
        ok = False
        for mod, ln in errs.items():
            n = cut(f"{DST}/theories/{mod}.v", ln)
            if n is None: notes.append(f"{mod}.v:{ln}: not inside a proof")
            else: ok = True; broken.append(f"{mod}.{n}")
        if not ok: break
    failed, survived = [], []
    for p in sorted(os.listdir(f"{DST}/theories")):
        if not re.fullmatch(r"Props_\w+\.v", p): continue
        src = open(f"{DST}/theories/{p}").read()
        names = re.findall(r"^Print Assumptions (\w+)", src, re.M)
        mod = p[:-2]
        if m.get("targets") and mod not in m["targets"]: continue
        if not os.path.exists(f"{DST}/theories/{mod}.vo"):
            notes.append(mod + " not built"); continue
        open(f"{DST}/chk.v", "w").write(f"From Verif Require Import {mod}.\n" + "\n".join(f"Print Assumptions {n}." for n in names))
        out = sh("coqc -Q theories Verif chk.v 2>&1", 900)
        blocks = re.split(r"(?=Closed under the global context|Axioms:)", out)[1:]
        if len(blocks) != len(names): notes.append(f"{mod}: {len(blocks)} blocks for {len(names)}")
        for n, b in zip(names, blocks):
            (survived if b.startswith("Closed") else failed).append(n)
        failed += [n for n in (b.split(".")[1] for b in broken if b.startswith(mod + ".")) if n not in failed]
    return dict(broken=broken, failed=failed, notes=notes)
for m in json.load(open(sys.argv[1])):
    r = run(m)
    print(json.dumps(dict(definition=m["definition"], edit=m["edit"], breaks=m["breaks"], **r)), flush=True)
