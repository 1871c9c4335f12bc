#!/usr/bin/env python3
"""Try wrong models: usage mutate.py mutations.json workdir [ids...]

Each mutation {id, file, old, new, definition, edit, claim} is applied to a copy of rocq/ in workdir. Everything
that depends on the edited file is compiled again; a proof that fails is replaced by Admitted and compilation goes on, so
that Print Assumptions tells which theorems depend on failing proofs. Prints one JSON line per mutation."""
import json, os, re, shutil, subprocess, sys, time
root = os.path.dirname(os.path.dirname(os.path.abspath(__file__)))
muts = json.load(open(sys.argv[1])); work = sys.argv[2]; only = set(sys.argv[3:])
START = re.compile(r"^\s*(?:Local |Global |#\[[^\]]*\] )*(Lemma|Theorem|Example|Corollary|Fact|Remark|Instance|Definition|Fixpoint|Program)\s+(\w+)")

def deps(files):
    d = {}
    for f in files:
        t = open(os.path.join(work, f)).read()
        mods = set()
        for m in re.finditer(r"From Verif Require(?:\s+Import|\s+Export)?\s+([\w\s]+?)\.\s", t):
            mods |= set(m.group(1).split())
        d[f] = {"theories/%s.v" % m for m in mods}
    return d

def admit(path, line):
    """Replace the proof around the given line (1-based) by Admitted; return the name or None."""
    L = open(path).read().split("\n")
    i = line - 1
    while i >= 0 and not (START.match(L[i])): i -= 1
    if i < 0: return None
    name = START.match(L[i]).group(2)
    j = i
    while j < len(L) and not re.search(r"(^|\s)Proof\b", L[j]):
        if j > i and START.match(L[j]): return None
        j += 1
    if j >= len(L) or j > line - 1: return None
    k = j
    while k < len(L) and not re.search(r"\b(Qed|Defined|Admitted)\.\s*$", L[k]): k += 1
    if k >= len(L) or re.search(r"Defined\.\s*$", L[k]): return None
    if "Admitted." in L[k]: return None
    pre = L[j][:re.search(r"\bProof\b", L[j]).start()]
    L[j:k+1] = [pre + "Admitted."] + [""] * (k - j)
    open(path, "w").write("\n".join(L))
    return name

def compile(f, timeout):
    try:
        r = subprocess.run(["coqc", "-Q", "theories", "Verif", "-time", f], cwd=work, capture_output=True, text=True, timeout=timeout)
        return r.returncode, r.stdout, r.stderr
    except subprocess.TimeoutExpired as e:
        return -1, (e.stdout or b"").decode(errors="replace"), "timeout"

def run(m):
    if os.path.exists(work): shutil.rmtree(work)
    shutil.copytree(os.path.join(root, "rocq"), work, copy_function=shutil.copy2)
    p = os.path.join(work, "theories", m["file"])
    t = open(p).read()
    if t.count(m["old"]) != 1: return dict(id=m["id"], error="old text found %d times" % t.count(m["old"]))
    open(p, "w").write(t.replace(m["old"], m["new"]))
    files = [l.strip() for l in open(os.path.join(work, "_CoqProject")) if l.strip().endswith(".v")]
    dd = deps(files)
    order, seen = [], set()
    def visit(f):
        if f in seen or f not in dd: return
        seen.add(f)
        for g in sorted(dd[f]): visit(g)
        order.append(f)
    for f in files: visit(f)
    files = order
    dirty, broken, admitted, blocked, bad = set(), {}, [], [], []
    t0 = time.time()
    for f in files:
        if f != "theories/" + m["file"] and not (dd[f] & (dirty | set(broken))): continue
        if dd[f] & set(broken):
            broken[f] = "blocked"
            blocked += re.findall(r"^Theorem (C\d\d_\w+)", open(os.path.join(work, f)).read(), re.M)
            continue
        for _ in range(60):
            rc, out, err = compile(f, 900)
            if rc == 0: dirty.add(f); break
            e = re.search(r'File "[^"]*", line (\d+), characters', err)
            if e: line = int(e.group(1))
            elif err == "timeout":
                last = re.findall(r"^Chars (\d+) - (\d+)", out, re.M)
                if not last: broken[f] = "timeout"; break
                line = open(os.path.join(work, f), "rb").read()[:int(last[-1][1]) + 1].count(b"\n") + 1
            else: broken[f] = err[-300:]; break
            name = admit(os.path.join(work, f), line)
            if name is None: broken[f] = "line %d: %s" % (line, err.strip()[-300:]); break
            admitted.append(f[9:-2] + "." + name)
        else: broken[f] = "too many failures"
        if f in broken:
            blocked += re.findall(r"^Theorem (C\d\d_\w+)", open(os.path.join(work, f)).read(), re.M)
        elif "/Prop_" in f:
            names = re.findall(r"^Print Assumptions (\w+)\.", open(os.path.join(work, f)).read(), re.M)
            blocks = re.findall(r"^(Closed under|Axioms:)", out, re.M)
            if len(names) != len(blocks): broken[f] = "assumptions"; continue
            bad += [n for n, b in zip(names, blocks) if b.startswith("Axioms")]
    return dict(id=m["id"], theorems_failed=bad, blocked=blocked, proofs_failed=admitted, broken=broken, secs=round(time.time() - t0))

for m in muts:
    if only and m["id"] not in only: continue
    print(json.dumps(run(m)), flush=True)
