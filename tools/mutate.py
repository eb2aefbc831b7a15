#!/usr/bin/env python3
"""Random one-token edits of the model, each tried on a scratch copy of the development.

usage: mutate.py gen OUT.json N SEED          draw N edits of the model files
       mutate.py run SPEC.json OUT.jsonl WORK   try them (WORK: scratch directory, SEED_SRC: built copy)

The build stops at the first lemma or theorem whose proof fails (examples do not count: they are taken out).
The property theorems that rest on that lemma are read from the .glob files of the unchanged build.
An edit that no proof notices is reported with an empty list: the theorems have to be tightened, or the
edit is equivalent to the original.
"""
import json, os, random, re, shutil, subprocess, sys

SRC = os.environ.get("SEED_SRC", "/verif/rocq")
MODEL = ["XMath", "Ubend", "Peaks", "Brent", "Estimator", "Tail", "P2", "Spot", "Heap", "Str", "PyBinding", "PyMembers", "Layout", "Programs", "Bench", "Word", "JsBinding", "PyRefs", "PyReenter"]
SWAPS = [(r" \+ ", [" - "]), (r" - ", [" + "]), (r" \* ", [" / "]), (r" / ", [" * "]),
         (r">\?", ["<?", ">=?"]), (r"<\?", ["<=?", ">?"]), (r">=\?", [">?"]), (r"<=\?", ["<?"]), (r"(?<![<>=])=\?", ["<=?"]), (r"==\?", ["<=?"]),
         (r"&&", ["||"]), (r"\|\|", ["&&"]), (r"negb ", [""]), (r"#(\d+)", None), (r"(?<![\w#.'-])(\d+)(?![\w.'])", None),
         (r"\btrue\b", ["false"]), (r"\bfalse\b", ["true"])]
START = re.compile(r"^\s*(?:#\[[^]]*\]\s*)?(?:Local\s+|Global\s+)?(Lemma|Theorem|Example|Corollary|Fact|Remark|Instance)\s+([A-Za-z0-9_']+)")

def strip_comments(s):
    out, depth, i = [], 0, 0
    while i < len(s):
        if s.startswith("(*", i):
            depth += 1; out.append("  "); i += 2
        elif s.startswith("*)", i):
            depth -= 1; out.append("  "); i += 2
        else:
            out.append(s[i] if depth == 0 or s[i] == "\n" else " "); i += 1
    return "".join(out)

def candidates():
    res = []
    for f in MODEL:
        p = os.path.join(SRC, "theories", f + ".v")
        s = strip_comments(open(p).read())
        for m in re.finditer(r"(?:^|\n)\s*(?:Definition|Fixpoint)\s+([\w']+)[^\n]*?", s):
            name, a = m.group(1), m.end()
            b = re.search(r"\.\s*(\n|$)", s[a:])
            if not b:
                continue
            body0 = s.find(":=", a, a + b.start())
            if body0 < 0:
                continue
            for pat, news in SWAPS:
                for k in re.finditer(pat, s[body0 + 2:a + b.start()]):
                    i, j = body0 + 2 + k.start(), body0 + 2 + k.end()
                    old = s[i:j]
                    ns = news
                    if ns is None:
                        v = int(k.group(1)); pre = "#" if old.startswith("#") else ""
                        ns = [pre + str(v + 1)] + ([pre + str(v - 1)] if v > 0 else [])
                    for n in ns:
                        res.append({"file": f + ".v", "definition": name, "start": i, "end": j, "old": old, "new": n})
    return res

def gen(out, n, seed):
    random.seed(int(seed))
    c = candidates()
    byf = {}
    for x in c:
        byf.setdefault((x["file"], x["definition"]), []).append(x)
    keys = sorted(byf)
    random.shuffle(keys)
    pick = []
    while len(pick) < int(n) and any(byf.values()):
        for k in keys:
            if byf[k] and len(pick) < int(n):
                pick.append(byf[k].pop(random.randrange(len(byf[k]))))
    for i, x in enumerate(pick):
        s = open(os.path.join(SRC, "theories", x["file"])).read()
        l0 = s.rfind("\n", 0, x["start"]) + 1
        l1 = s.find("\n", x["end"])
        x["edit"] = s[l0:l1].strip() + "  ==>  " + (s[l0:x["start"]] + x["new"] + s[x["end"]:l1]).strip()
    json.dump(pick, open(out, "w"), indent=1)
    print(len(c), "candidates,", len(pick), "drawn")

def graph():
    """(file, lemma) -> property theorems that use it, from the .glob files"""
    uses = {}
    th = os.path.join(SRC, "theories")
    for g in sorted(os.listdir(th)):
        if not g.endswith(".glob"):
            continue
        f = g[:-5]
        defs, refs = [], []
        for l in open(os.path.join(th, g)):
            m = re.match(r"R(\d+):\d+ Verif\.(\w+) <> (\S+) (?:prf|thm|def)", l) or re.match(r"R(\d+):\d+ Verif\.(\w+) \S+ (\S+) (?:prf|thm|def)", l)
            if m:
                refs.append((int(m.group(1)), m.group(2), m.group(3)))
                continue
            m = re.match(r"(?:prf|thm|def) (\d+):\d+ \S+ (\S+)", l)
            if m:
                defs.append((int(m.group(1)), m.group(2)))
        defs.sort()
        import bisect
        starts = [x[0] for x in defs]
        for pos, rf, rn in refs:
            i = bisect.bisect_right(starts, pos) - 1
            if i >= 0:
                uses.setdefault((rf, rn), set()).add((f, defs[i][1]))
    return uses

def dependents(uses, node):
    seen, todo = set(), [node]
    while todo:
        x = todo.pop()
        if x in seen:
            continue
        seen.add(x)
        todo += uses.get(x, ())
    return sorted(n for f, n in seen if f.startswith("Props_"))

def enclosing(lines, ln):
    i = ln
    while i >= 0 and not START.match(lines[i]):
        i -= 1
    if i < 0:
        return None
    m = START.match(lines[i])
    j = i
    while j < len(lines) and not re.search(r"\b(Qed|Defined|Admitted)\.", lines[j]):
        j += 1
    return (m.group(1), m.group(2), i, j) if j >= ln else None

def prepare(work):
    shutil.rmtree(work, ignore_errors=True)
    shutil.copytree(SRC, work, symlinks=True)
    for f in os.listdir(os.path.join(work, "theories")):
        p = os.path.join(work, "theories", f)
        if not f.endswith(".v"):
            continue
        st = os.stat(p)
        keep, skip = [], False
        for l in open(p).read().split("\n"):
            skip = skip or (f.startswith("Props_") and l.startswith("Example "))
            if not skip:
                keep.append(l)
            if skip and re.search(r"\bQed\.", l):
                skip = False
        open(p, "w").write("Set Default Timeout 240. " + "\n".join(keep))
        os.utime(p, ns=(st.st_atime_ns, st.st_mtime_ns))

def attempt(x, work, uses):
    prepare(work)
    p = os.path.join(work, "theories", x["file"])
    s = open(os.path.join(SRC, "theories", x["file"])).read()
    assert s[x["start"]:x["end"]] == x["old"]
    open(p, "w").write(s[:x["start"]] + x["new"] + s[x["end"]:])
    skipfiles = ("Demo", "Suite")
    files = [l.strip() for l in open(os.path.join(work, "_CoqProject")) if l.strip().endswith(".v")]
    subprocess.run(["coq_makefile", "-f", "_CoqProject", "-o", "Makefile"], cwd=work, check=True, stdout=subprocess.DEVNULL)
    targets = " ".join(f + "o" for f in files if not os.path.basename(f).startswith("Suite"))
    r = {"definition": x["definition"], "edit": x["edit"]}
    for it in range(60):
        o = subprocess.run("ulimit -v 6000000; timeout 4200 make -j1 %s 2>&1" % targets, shell=True, cwd=work, stdout=subprocess.PIPE, text=True)
        if o.returncode == 0:
            r.update(lemmas_failed=[], theorems_failed=[], survived=True)
            return r
        m = re.search(r'File "\./theories/(\w+)\.v", line (\d+), characters [\d-]+:\n(Error(?:.|\n)*)', o.stdout)
        if not m:
            r.update(stuck=o.stdout[-300:])
            return r
        f, ln = m.group(1), int(m.group(2)) - 1
        q = os.path.join(work, "theories", f + ".v")
        lines = open(q).read().split("\n")
        e = enclosing(lines, ln)
        if not e:
            r.update(stuck=f + ":" + str(ln + 1) + " " + m.group(3)[:200])
            return r
        kind, name, i, j = e
        if kind == "Example" or "Demo" in f or "demo" in name:
            body = "\n".join(lines[i:j + 1])
            k = re.search(r"(^|\s)Proof\b", body)
            if not k:
                r.update(stuck=f + ":" + name); return r
            lines[i:j + 1] = (body[:k.start()] + "\nProof. Admitted.").split("\n")
            open(q, "w").write("\n".join(lines))
            continue
        r.update(lemmas_failed=[name], theorems_failed=dependents(uses, (f, name)), survived=False)
        return r
    return r

if __name__ == "__main__":
    if sys.argv[1] == "gen":
        gen(*sys.argv[2:5])
    else:
        uses = graph()
        out = sys.argv[3]
        done = sum(1 for _ in open(out)) if os.path.exists(out) else 0
        for x in json.load(open(sys.argv[2]))[done:]:
            r = attempt(x, sys.argv[4], uses)
            with open(out, "a") as fo:
                fo.write(json.dumps(r) + "\n")
