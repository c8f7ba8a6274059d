#!/usr/bin/env python3
"""Seeded-bug testing.

Usage: mutate.py SPEC.py [first [last]]

SPEC.py defines MUTANTS, a list of (file, old text, new text, description, broken claim).  For each mutant
the built tree of /verif/rocq is copied to a scratch directory, the edit is applied, and every file
that depends on it is recompiled.  A lemma whose proof fails is replaced by Admitted so that the
rest can be checked; the property theorems that then rest on an admitted lemma, according to Print
Assumptions, are the ones the bug breaks.  One JSON line per mutant is appended to
/verif/seeded/LOG.jsonl."""
import sys, os, re, json, subprocess, shutil, time, fcntl, runpy
BASE = os.environ.get("MUT_BASE", "/verif/rocq")
SCRATCH = os.environ.get("MUT_DIR", "/root/mut")
LOG = "/verif/seeded/LOG.jsonl"

def files():
    return [l.strip() for l in open(f"{BASE}/_CoqProject") if l.strip().endswith(".v")]

def deps(fs):
    out = subprocess.run(["coqdep", "-Q", "theories", "Verif"] + fs, cwd=BASE, capture_output=True, text=True).stdout
    d = {}
    for l in out.splitlines():
        m = re.match(r"(\S+)\.vo .*?: (.*)", l)
        if m:
            d[m.group(1) + ".v"] = {x[:-1] for x in m.group(2).split() if x.endswith(".vo")}
    return d

START = re.compile(r"^\s*(?:#\[[^\]]*\]\s*)?(?:Local |Global )?(Lemma|Theorem|Corollary|Example|Fact|Remark|Definition|Fixpoint|Instance|Let)\s+([\w']+)", re.M)

def admit_at(src, line):
    """Replace by Admitted the proof that contains [line] (1-based); returns (name, new source)."""
    lines = src.split("\n")
    off = sum(len(l) + 1 for l in lines[:line - 1])
    end_off = off + len(lines[line - 1])
    cand = [m for m in START.finditer(src) if m.start() <= end_off]
    if not cand: return None, None
    m = cand[-1]
    e = re.compile(r"\b(Qed|Defined)\.").search(src, m.end())
    p = re.compile(r"\bProof\b[^.]*\.").search(src, m.end())
    if not e or not p or p.start() > e.start() or end_off < p.start(): return m.group(2), None
    # the next definition must not start before the end
    return m.group(2), src[:p.start()] + "Proof. Admitted." + src[e.end():]

def compile_file(root, f, timeout):
    try:
        r = subprocess.run(["timeout", str(timeout), "coqc", "-time", "-Q", "theories", "Verif", f], cwd=root,
                           capture_output=True, text=True)
    except Exception as ex:
        return False, str(ex), 1
    out = r.stdout
    if r.returncode == 0: return True, out, 0
    m = re.search(r'File "[^"]*", line (\d+), characters', r.stderr)
    if m and "Error" in r.stderr: return False, r.stderr, int(m.group(1))
    # timeout: the sentence after the last one reported
    chars = [int(x) for x in re.findall(r"^Chars \d+ - (\d+)", out, re.M)]
    src = open(f"{root}/{f}", "rb").read()
    pos = chars[-1] + 2 if chars else 0
    return False, "timeout", src[:pos].count(b"\n") + 1

def run(i, mut, name):
    f, old, new, desc, claim = mut[:5]
    root = f"{SCRATCH}/{name}_{i}"
    shutil.rmtree(root, ignore_errors=True)
    subprocess.run(["cp", "-a", BASE, root], check=True)
    path = f"{root}/theories/{f}.v"
    src = open(path).read()
    assert src.count(old) >= 1, (f, old)
    if src.count(old) > 1 and not (len(mut) > 5 and mut[5] == "first"): raise SystemExit(f"ambiguous: {f}: {old}")
    open(path, "w").write(src.replace(old, new, 1))
    fs = files(); d = deps(fs)
    changed = {f"theories/{f}.v"}
    failed, dead, theorems, held = [], set(), [], []
    for g in fs:
        if g not in changed and not (d.get(g, set()) & changed): continue
        changed.add(g)
        if d.get(g, set()) & dead:
            dead.add(g); failed.append(g[9:-2] + " (not compiled)"); continue
        for _ in range(60):
            okc, out, line = compile_file(root, g, 400)
            if okc: break
            s = open(f"{root}/{g}").read()
            nm, s2 = admit_at(s, line)
            if s2 is None:
                dead.add(g); failed.append(f"{g[9:-2]}.{nm} (statement)")
                break
            failed.append(f"{g[9:-2]}.{nm}" + (" (timeout)" if out == "timeout" else ""))
            open(f"{root}/{g}", "w").write(s2)
        if g[9:].startswith("P") and g not in dead:
            s = open(f"{root}/{g}").read()
            names = re.findall(r"Print Assumptions (\w+)", s)
            body = "\n".join(l for l in out.split("\n") if not l.startswith("Chars "))
            parts = re.findall(r"Closed under the global context|Axioms:", body)
            assert len(parts) == len(names), (g, len(parts), len(names))
            for n, r in zip(names, parts):
                (held if r.startswith("Closed") else theorems).append(n)
    for g in dead:
        if g[9:].startswith("P"):
            theorems += re.findall(r"Print Assumptions (\w+)", open(f"{root}/{g}").read())
    shutil.rmtree(root, ignore_errors=True)
    rec = {"definition": f"{f}.v", "edit": f"{desc}: `{old}` -> `{new}`", "claim": claim,
           "failed_theorems": sorted(theorems), "failed_lemmas": failed, "still_proved": len(held),
           "tightened": []}
    with open(LOG, "a") as h:
        fcntl.flock(h, fcntl.LOCK_EX); h.write(json.dumps(rec) + "\n")
    print(time.strftime("%H:%M:%S"), name, i, desc, "->", len(theorems), "theorems,", failed[:4], flush=True)
    if not theorems: print("   SURVIVED:", rec["edit"], flush=True)

if __name__ == "__main__":
    ms = runpy.run_path(sys.argv[1])["MUTANTS"]
    a = int(sys.argv[2]) if len(sys.argv) > 2 else 0
    b = int(sys.argv[3]) if len(sys.argv) > 3 else len(ms)
    os.makedirs(SCRATCH, exist_ok=True)
    nm = os.path.basename(sys.argv[1])[:-3]
    for i in range(a, min(b, len(ms))): run(i, ms[i], nm)
