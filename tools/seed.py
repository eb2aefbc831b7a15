#!/usr/bin/env python3
"""Apply one wrong edit to a scratch copy of the development and report which theorems stop holding.

usage: seed.py SPEC.json      (SPEC: list of {"id","file","definition","old","new","breaks"})

The scratch copy lives in /tmp/seed.  A proof that fails is replaced by Admitted and the build resumes, so
that the report lists every lemma whose proof fails, and (through Print Assumptions) every property theorem
that depends on one of them.  One JSON line per attempt is printed.
"""
import json, os, re, shutil, subprocess, sys

SRC = os.environ.get("SEED_SRC", "/verif/rocq")
START = re.compile(r"^\s*(?:#\[[^]]*\]\s*)?(?:Local\s+|Global\s+)?(Lemma|Theorem|Example|Corollary|Fact|Remark|Instance)\s+([A-Za-z0-9_']+)")

def enclosing(lines, ln):
    i = ln
    while i >= 0:
        m = START.match(lines[i])
        if m:
            break
        i -= 1
    if i < 0:
        return None
    j = i
    while j < len(lines) and not re.search(r"\b(Qed|Defined|Admitted)\.", lines[j]):
        j += 1
    return (m.group(2), i, j) if j >= ln else None

def attempt(spec, work):
    shutil.rmtree(work, ignore_errors=True)
    shutil.copytree(SRC, work, symlinks=True)
    edits = spec.get("edits") or [{"file": spec["file"], "old": spec["old"], "new": spec["new"]}]
    for e in edits:
        p = os.path.join(work, "theories", e["file"])
        s = open(p).read()
        assert s.count(e["old"]) == 1, (spec["id"], "old text occurs %d times" % s.count(e["old"]))
        open(p, "w").write(s.replace(e["old"], e["new"]))
    subprocess.run(["coq_makefile", "-f", "_CoqProject", "-o", "Makefile"], cwd=work, check=True, stdout=subprocess.DEVNULL)
    # a tactic that loops on the edited model is a failure of its lemma
    for f in os.listdir(os.path.join(work, "theories")):
        if f.endswith(".v"):
            p = os.path.join(work, "theories", f)
            s = open(p).read()
            st = os.stat(p)
            open(p, "w").write("Set Default Timeout 240. " + s)
            if not any(e["file"] == f for e in edits):
                os.utime(p, ns=(st.st_atime_ns, st.st_mtime_ns))
    # the examples are not theorems: a bug must be caught by a theorem
    for f in os.listdir(os.path.join(work, "theories")):
        if f.startswith("Props_") and f.endswith(".v"):
            p = os.path.join(work, "theories", f)
            lines, keep, skip = open(p).read().split("\n"), [], False
            for l in lines:
                skip = skip or l.startswith("Example ")
                if not skip:
                    keep.append(l)
                if skip and re.search(r"\bQed\.", l):
                    skip = False
            open(p, "w").write("\n".join(keep))
    failed, stuck, out = [], [], ""
    assume = {}
    files = [l.strip() for l in open(os.path.join(work, "_CoqProject")) if l.strip().endswith(".v")]
    lemma_files = " ".join(f + "o" for f in files if "Props_" not in f)
    targets = lemma_files            # first the lemmas, then the property files
    for it in range(120):
        r = subprocess.run("ulimit -v 9000000; timeout 3000 make -k -j%s %s 2>&1" % (os.environ.get("SEED_J", "2"), targets),
                           shell=True, cwd=work, stdout=subprocess.PIPE, text=True)
        out = r.stdout
        if r.returncode == 0:
            if targets == "":
                break
            targets = ""
            continue
        progress = False
        for m in re.finditer(r'File "\./theories/(\w+\.v)", line (\d+), characters [\d-]+:\n(Error.*)', out):
            f, ln, err = m.group(1), int(m.group(2)) - 1, m.group(3)
            p = os.path.join(work, "theories", f)
            lines = open(p).read().split("\n")
            e = enclosing(lines, ln)
            if not e:
                stuck.append(f + ":" + str(ln + 1) + " " + err)
                continue
            name, i, j = e
            body = "\n".join(lines[i:j + 1])
            k = re.search(r"(^|\s)Proof\b", body)
            if not k or (body[:k.start()].count("\n") + i > ln):
                stuck.append(f + ":" + str(ln + 1) + " (statement of " + name + ") " + err)
                continue
            new = body[:k.start()] + "\nProof. Admitted."
            lines[i:j + 1] = new.split("\n")
            open(p, "w").write("\n".join(lines))
            if (f, name) not in failed:
                failed.append((f, name))
                progress = True
        if not progress:
            break
    # which property theorems now rest on an admitted lemma
    admitted = {n for _, n in failed}
    hit = []
    for f in sorted(os.listdir(os.path.join(work, "theories"))):
        if not (f.startswith("Props_") and f.endswith(".v")):
            continue
        if not os.path.exists(os.path.join(work, "theories", f + "o")):
            continue
        names = re.findall(r"^Print Assumptions (\w+)", open(os.path.join(work, "theories", f)).read(), re.M)
        mod = f[:-2]
        q = "From Verif Require Import %s.\n" % mod
        for n in names:
            q += "Goal True. idtac \"@@ %s\". Abort.\nPrint Assumptions %s.\n" % (n, n)
        t = os.path.join(work, "q_%s.v" % mod)
        open(t, "w").write(q)
        o = subprocess.run(["coqc", "-Q", "theories", "Verif", t], cwd=work, stdout=subprocess.PIPE,
                           stderr=subprocess.STDOUT, text=True).stdout
        for chunk in o.split("@@ ")[1:]:
            n = chunk.split()[0]
            used = [w.split(".")[-1] for w in re.findall(r"^([\w.']+)(?:\s|$)", chunk[len(n):], re.M)]
            if n in admitted or any(u in admitted for u in used):
                hit.append(n)
    rec = {k: spec[k] for k in ("id", "definition", "edit", "breaks") if k in spec}
    rec["lemmas_failed"] = [n for _, n in failed]
    rec["theorems_failed"] = sorted(set(hit) | {n for f, n in failed if f.startswith("Props_")})
    if stuck:
        rec["stuck"] = sorted(set(stuck))[:4]
    rec["theorems_tightened"] = []
    return rec

if __name__ == "__main__":
    specs = json.load(open(sys.argv[1]))
    out = sys.argv[2]
    work = sys.argv[3] if len(sys.argv) > 3 else "/tmp/seed"
    done = set()
    if os.path.exists(out):
        done = {json.loads(l)["id"] for l in open(out)}
    for sp in specs:
        if sp["id"] in done:
            continue
        try:
            rec = attempt(sp, work)
        except AssertionError as ex:
            rec = {"id": sp["id"], "error": str(ex)}
        with open(out, "a") as f:
            f.write(json.dumps(rec) + "\n")
