#!/usr/bin/env python3
"""Survey of small edits.

Usage: survey.py LIST|RUN FILE... -- for every definition of the given model files makes small edits (a number one
larger, a comparison or connective exchanged, firstn for skipn, rev dropped, branches exchanged ...), compiles the file
and everything that depends on it in dependency order, and stops at the first failure.  An edit that survives
is printed with SURVIVED: either it does not change the function or no theorem covers it.  One JSON line per edit that
type-checks is appended to /verif/seeded/LOG.jsonl."""
import sys, os, re, json, subprocess, shutil, time, fcntl, random
sys.path.insert(0, os.path.dirname(__file__))
import mutate
BASE, SCRATCH, LOG = mutate.BASE, os.environ.get("MUT_DIR", "/root/sv"), "/verif/seeded/LOG.jsonl"
PER_DEF = int(os.environ.get("PER_DEF", "4"))

def blank_comments(s):
    out, d, i = [], 0, 0
    while i < len(s):
        if s.startswith("(*", i): d += 1; out.append("  "); i += 2; continue
        if s.startswith("*)", i) and d: d -= 1; out.append("  "); i += 2; continue
        out.append(s[i] if d == 0 or s[i] == "\n" else " "); i += 1
    return "".join(out)

SWAPS = [(r"<=\?", "<?"), (r"(?<!<)<\?", "<=?"), (r"&&", "||"), (r"\|\|", "&&"), (r"\btrue\b", "false"), (r"\bfalse\b", "true"),
         (r"\bfirstn\b", "skipn"), (r"\bskipn\b", "firstn"), (r"\brev\b", ""), (r"\bnegb\b", ""), (r"(?<=\s)\+(?=\s)", "-"),
         (r"(?<=\s)-(?=\s)", "+"), (r"(?<=\s)\*(?=\s)", "+"), (r"\bN\.lxor\b", "N.lor"), (r"\bN\.land\b", "N.lor"), (r"\bN\.lor\b", "N.land"),
         (r"\bN\.shiftl\b", "N.shiftr"), (r"\bN\.shiftr\b", "N.shiftl"), (r"\bfold_left\b", "fold_left"), (r"\bmod\b", "/"),
         (r"\bBOBB\b", "BOLB"), (r"\bBOLB\b", "BOBB"), (r"\bLOBB\b", "BOBB"), (r"\bhd\b", "last"), (r"\blast\b", "hd"),
         (r"\bremovelast\b", "tl"), (r"\btl\b", "removelast"), (r"\bfst\b", "snd"), (r"\bsnd\b", "fst"), (r"\bandb\b", "orb"), (r"\bS (?=\w)", "")]

def edits(src):
    b = blank_comments(src)
    ds = [(m.start(), m.group(1)) for m in re.finditer(r"^\s*(?:Local |Global )?(?:Definition|Fixpoint)\s+([\w']+)", b, re.M)]
    # a definition ends at the first full stop followed by white space
    for pos, name in ds:
        e = re.compile(r"\.(?=\s)").search(b, pos); end = e.end()
        head = b.find(":=", pos); head = head + 2 if head >= 0 else pos
        es = []
        for m in re.finditer(r"(?<![\w.#'%])(0x[0-9a-fA-F]+|\d+)(?![\w'])", b[head:end]):
            v = int(m.group(1), 0); es.append((head + m.start(), head + m.end(), str(v + 1)))
            if v: es.append((head + m.start(), head + m.end(), str(v - 1)))
        for pat, rep in SWAPS:
            for m in re.finditer(pat, b[head:end]): es.append((head + m.start(), head + m.end(), rep))
        m = re.search(r"\bif (.+?) then (.+?) else ", b[head:end])
        if m: es.append((head + m.start(1), head + m.end(1), "negb (" + m.group(1) + ")"))
        # exchange two adjacent simple arguments
        for m in re.finditer(r"(?<=[\w)] )([a-z]\w*) ([a-z]\w*)(?=[ );])", b[head:end]):
            if m.group(1) != m.group(2) and not {m.group(1), m.group(2)} & {"with","in","let","then","else","end","match","fun","if","mod","return","as"}:
                es.append((head + m.start(), head + m.end(), f"{m.group(2)} {m.group(1)}"))
        random.Random(name).shuffle(es)
        yield name, es

def main(mode, fs_arg):
    allf = mutate.files(); d = mutate.deps(allf)
    os.makedirs(SCRATCH, exist_ok=True)
    for f in fs_arg:
        root = f"{SCRATCH}/w_{f}"
        shutil.rmtree(root, ignore_errors=True); subprocess.run(["cp", "-a", BASE, root], check=True)
        path = f"{root}/theories/{f}.v"; src = open(path).read()
        dep = [f"theories/{f}.v"]; seen = set(dep)
        for g in allf:
            if g not in seen and d.get(g, set()) & seen: seen.add(g); dep.append(g)
        for name, es in edits(src):
            done = 0
            for (a, b, rep) in es:
                if done >= PER_DEF: break
                ctx = src[max(0, a - 30):a] + "[[" + src[a:b] + " => " + rep + "]]" + src[b:b + 30]
                ctx = " ".join(ctx.split())
                if mode == "LIST": print(f, name, ctx); done += 1; continue
                open(path, "w").write(src[:a] + rep + src[b:])
                bad = None; t0 = time.time()
                for k, g in enumerate(dep):
                    ok, out, line = mutate.compile_file(root, g, 300)
                    if not ok: bad = (k, g, out, line); break
                if bad and bad[0] == 0: continue          # does not type-check
                done += 1
                if bad:
                    k, g, out, line = bad
                    nm, _ = mutate.admit_at(open(f"{root}/{g}").read(), line)
                    below = {g}
                    for h in dep:
                        if d.get(h, set()) & below: below.add(h)
                    th = sorted(t for h in below if h[9:].startswith("P") for t in re.findall(r"Print Assumptions (\w+)", open(f"{root}/{h}").read()))
                    fl = f"{g[9:-2]}.{nm}" + (" (timeout)" if out == "timeout" else "")
                else: th, fl = [], None
                print(time.strftime("%H:%M:%S"), f, name, ctx, "->", fl or "SURVIVED", f"{time.time()-t0:.0f}s", flush=True)
                rec = {"definition": f"{f}.v {name}", "edit": ctx, "claim": "the claims about " + name, "failed_theorems": th,
                       "failed_lemmas": [fl] if fl else [], "tightened": [], "note": "survey of small edits: the build stopped at the first failing lemma; the theorems listed are those whose files depend on it"}
                if fl:
                    with open(LOG, "a") as h:
                        fcntl.flock(h, fcntl.LOCK_EX); h.write(json.dumps(rec) + "\n")
                # restore the compiled files
                open(path, "w").write(src)
                for g in dep[:(bad[0] + 1 if bad else len(dep))]:
                    for ext in (".vo", ".vok", ".vos", ".glob"):
                        x = g[:-2] + ext
                        if os.path.exists(f"{BASE}/{x}"): shutil.copy2(f"{BASE}/{x}", f"{root}/{x}")
            open(path, "w").write(src)
        shutil.rmtree(root, ignore_errors=True)

if __name__ == "__main__": main(sys.argv[1], sys.argv[2:])
