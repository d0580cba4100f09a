"""Mutation runner.  Usage: seed.py NAME [-j N] < edit.json
edit.json: {"file": "Msg1.v", "old": "...", "new": "..."} or a list of such edits.
Copies /verif/rocq to /tmp/seed/NAME, applies the edits, rebuilds every dependent file and
replaces each proof that fails by Admitted.  Prints the property theorems that rest on an
admitted statement, and the examples that fail.  A proof that fails is not yet a statement that
is false: the log entry has to say which claim the edit breaks."""
import sys, os, json, re, shutil, subprocess, threading, queue, time
SRC = os.environ.get("SEED_SRC", "/verif/rocq")
def chunks(s):
    """Split a file into (kind, text) where kind is 'proof' for statement+proof, else 'other'."""
    out, i, n = [], 0, len(s)
    def skip(i):
        # end of the sentence that starts at i
        d = 0
        while i < n:
            if s.startswith("(*", i): d += 1; i += 2; continue
            if s.startswith("*)", i) and d: d -= 1; i += 2; continue
            if not d and s[i] == '"':
                i = s.index('"', i + 1) + 1; continue
            if not d and s[i] == "." and (i + 1 == n or s[i + 1].isspace()) and not s.startswith("..", i - 1): return i + 1
            i += 1
        return n
    head = re.compile(r"\s*(?:\(\*.*?\*\)\s*)*(Local )?(Lemma|Theorem|Example|Corollary|Fact|Remark|Instance|Program Definition)\b", re.S)
    while i < n:
        # leading comments belong to the sentence
        j = skip(i)
        t = s[i:j]
        body = re.sub(r"\(\*.*?\*\)", "", t, flags=re.S).strip()
        m = re.match(r"(Local |Global )?(Lemma|Theorem|Example|Corollary|Fact|Remark)\s+(\w+)", body)
        if m and not re.search(r":=", body.split(":", 1)[1] if ":" in body else ""):
            k = j
            while True:
                k2 = skip(k)
                x = re.sub(r"\(\*.*?\*\)", "", s[k:k2], flags=re.S).strip()
                if re.search(r"(^|\s)(Qed|Defined|Admitted|Abort)\.$", x): break
                if k2 >= n: break
                k = k2
            out.append(("proof", m.group(3), t, s[j:k2])); i = k2
        elif m:
            # statement contains := (let in the type); find its proof the same way when Proof follows
            k = skip(j); x = re.sub(r"\(\*.*?\*\)", "", s[j:k], flags=re.S).strip()
            if x.startswith("Proof"):
                k2 = j
                while True:
                    k3 = skip(k2); x = re.sub(r"\(\*.*?\*\)", "", s[k2:k3], flags=re.S).strip()
                    k2 = k3
                    if re.search(r"(^|\s)(Qed|Defined|Admitted|Abort)\.$", x) or k3 >= n: break
                out.append(("proof", m.group(3), t, s[j:k2])); i = k2
            else:
                out.append(("other", None, t, "")); i = j
        else:
            out.append(("other", None, t, "")); i = j
    return out
def drop(s, pos):
    """Remove the proof step at byte position pos."""
    i = 0
    for k, name, a, b in chunks(s):
        if i + len(a) <= pos < i + len(a) + len(b):
            st = i + len(a)
            for m in re.finditer(r"(?<!\.)\.(?=\s|$)", b):
                e = i + len(a) + m.end()
                if pos < e:
                    t = s[st:e]
                    lead = re.match(r"\s*(?:[-+*{}]+\s*)*", t).group(0)
                    if "Qed" in t or "Proof" in t: return None
                    return s[:st] + lead + "idtac." + s[e:]
                st = e
            return None
        i += len(a) + len(b)
    return None
def coqc(d, f, lim):
    try:
        p = subprocess.run(["coqc", "-q", "-Q", "theories", "Verif", f], cwd=d, capture_output=True, text=True, timeout=lim)
        return p.returncode, p.stdout, p.stderr
    except subprocess.TimeoutExpired as e:
        return 124, "", "timeout"
def probe(d, f, lim):
    """Names of the lemmas of f whose proofs fail."""
    cs = chunks(open(d + "/" + f).read())
    t = ["Set Default Timeout 60."]
    for i, (k, name, a, b) in enumerate(cs):
        if k == "proof":
            t += [a, b, "Fail Check seedmark%d." % i, "Abort.", "Fail Check %s." % name, a + " Admitted.", "Fail Check seedend%d." % i]
        else:
            t += [a]
    # a closed proof makes the second statement fail (name exists), which is harmless
    inp = "\n".join(t) + "\n"
    try:
        p = subprocess.run(["coqtop", "-q", "-Q", "theories", "Verif"], cwd=d, input=inp, capture_output=True, text=True, timeout=lim)
        o = p.stdout + "\n"
    except subprocess.TimeoutExpired as e:
        o = (e.stdout or b"").decode() if isinstance(e.stdout, bytes) else (e.stdout or "")
    bad = []
    for i, (k, name, a, b) in enumerate(cs):
        if k == "proof":
            # "Fail Check name" complains about name exactly if the proof did not close
            m = re.search(r'reference\s+seedmark%d\s(.*?)reference\s+seedend%d\s' % (i, i), o, re.S)
            if not m or re.search(r'reference\s+%s\s+was' % name, m.group(1)): bad.append(name)
    return bad, o
def admit(d, f, bad):
    cs = chunks(open(d + "/" + f).read())
    s = ""
    for k, name, a, b in cs:
        s += a + (" Admitted." if k == "proof" and name in bad else b)
    open(d + "/" + f, "w").write(s)
def main():
    name = sys.argv[1]; jobs = int(sys.argv[sys.argv.index("-j") + 1]) if "-j" in sys.argv else 3
    edits = json.load(sys.stdin)
    if isinstance(edits, dict): edits = [edits]
    d = "/tmp/seed/" + name
    shutil.rmtree(d, ignore_errors=True); os.makedirs(d)
    shutil.copytree(SRC + "/theories", d + "/theories"); shutil.copy(SRC + "/_CoqProject", d)
    files = [l.strip() for l in open(d + "/_CoqProject") if l.strip().endswith(".v")]
    dep = {f: set() for f in files}
    out = subprocess.run(["coqdep", "-Q", "theories", "Verif"] + files, cwd=d, capture_output=True, text=True).stdout
    for l in out.splitlines():
        if ":" not in l: continue
        a, b = l.split(":", 1)
        if not a.split()[0].endswith(".vo"): continue
        f = a.split()[0][:-1]
        if f in dep: dep[f] = {x[:-1] for x in b.split() if x.endswith(".vo") and x[:-1] in dep and x[:-1] != f}
    dirty = set()
    for e in edits:
        p = d + "/theories/" + e["file"]; s = open(p).read()
        if s.count(e["old"]) != e.get("count", 1):
            print("EDIT DOES NOT APPLY", s.count(e["old"]), e); sys.exit(1)
        open(p, "w").write(s.replace(e["old"], e["new"])); dirty.add("theories/" + e["file"])
    ch = True
    while ch:
        ch = False
        for f in files:
            if f not in dirty and dep[f] & dirty: dirty.add(f); ch = True
    for f in dirty:
        for x in ("vo", "vok", "vos", "glob"):
            try: os.remove(d + "/" + f[:-1] + x)
            except FileNotFoundError: pass
    done, dead, running, res = set(files) - dirty, {}, set(), {}
    lock = threading.Condition()
    def work():
        while True:
            with lock:
                while True:
                    todo = [f for f in dirty if f not in done and f not in dead and f not in running]
                    if not todo: return
                    for f in files:
                        if f in todo and dep[f] & set(dead): dead[f] = "needs " + ",".join(sorted(x for x in dep[f] if x in dead))
                    ready = [f for f in files if f in todo and f not in dead and dep[f] <= done]
                    if ready: f = ready[0]; running.add(f); break
                    if running: lock.wait(5)
            bad, tries = [], 0
            while True:
                c, o, e = coqc(d, f, 400)
                if c == 0 or tries == 12: break
                tries += 1
                b, log = probe(d, f, 900) if tries == 1 or c == 124 else ([], "")
                b = [x for x in b if x not in bad]
                if b: bad += b; admit(d, f, b); continue
                m = re.search(r"line (\d+), characters (\d+)-", e)
                if not m: break
                # the proof closes without the failing step: drop it
                src = open(d + "/" + f).read(); ls = src.split("\n")
                pos = sum(len(x) + 1 for x in ls[:int(m.group(1)) - 1]) + int(m.group(2))
                src = drop(src, pos)
                if src is None: break
                open(d + "/" + f, "w").write(src)
            with lock:
                running.discard(f); res[f] = (bad, o)
                if c == 0: done.add(f)
                else: dead[f] = e[-400:]
                lock.notify_all()
    ts = [threading.Thread(target=work) for _ in range(jobs)]
    t0 = time.time()
    [t.start() for t in ts]; [t.join() for t in ts]
    failed, examples = [], []
    for f in files:
        if f not in res: continue
        bad, o = res[f]
        if "/Prop" in f:
            src = open(d + "/" + f).read()
            pa = re.findall(r"^Print Assumptions (\w+)", src, re.M)
            blocks = re.split(r"(?=^Axioms:|^Closed under)", o, flags=re.M)
            blocks = [b for b in blocks if b.startswith(("Axioms:", "Closed under"))]
            for nm, b in zip(pa, blocks):
                if b.startswith("Axioms"): failed.append(nm)
            examples += [b for b in bad if b not in failed]
    helpers = {f.split("/")[1]: res[f][0] for f in files if f in res and res[f][0] and "/Prop" not in f}
    r = {"name": name, "failed": failed, "examples": examples, "admitted": helpers,
         "dead": {k: v for k, v in dead.items()}, "seconds": int(time.time() - t0)}
    json.dump(r, open("/tmp/seed/%s.json" % name, "w"), indent=1)
    print(json.dumps(r, indent=1))
    if not dead: shutil.rmtree(d, ignore_errors=True)
main()
