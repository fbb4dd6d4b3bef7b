"""Mechanical wrong edits of the model, one at a time, stopping at the first statement that breaks.

usage: screen.py XModel.v[,YModel.v...] per_definition [--log] [--all] [--only=def1,def2]

For every definition (with --all also those already in the log) up to per_definition edits are drawn:
comparisons and connectives replaced, signs and constants changed, arguments and branches exchanged,
updates dropped.  Edits that do not type check are skipped.  An edit counts as detected if a theorem
breaks, or a lemma whose name a theorem's proof mentions directly or through other lemmas.  Edits that
break nothing are printed as SURVIVOR and not logged: each is read by hand, and is either the same
function or leads to a tighter theorem.
"""
import json, os, random, re, shutil, subprocess, sys
root = os.path.dirname(os.path.dirname(os.path.abspath(__file__)))
scratch = "/tmp/screen/" + os.environ.get("MUT", "a")
shutil.rmtree(scratch, ignore_errors=True)
base = scratch + "_base"
shutil.rmtree(base, ignore_errors=True)
shutil.copytree(f"{root}/rocq", base)
theories = f"{base}/theories"

STMT = re.compile(r"^[ \t]*(?:#\[.*\]\s*)?(?:Local |Global )?(Lemma|Theorem|Example|Corollary|Fact|Instance|Remark)\s+([\w']+)", re.M)
ENDP = re.compile(r"\b(Qed|Defined|Abort)\.")


def sh(c, cwd=base):
    return subprocess.run(c, shell=True, cwd=cwd, capture_output=True, text=True).stdout


vfiles = [l.strip() for l in open(f"{base}/_CoqProject") if l.strip().endswith(".v")]
order = [os.path.normpath(f) for f in sh("coqdep -Q theories Verif -sort " + " ".join(vfiles)).split()]
deps = {}
for l in sh("coqdep -Q theories Verif " + " ".join(vfiles)).splitlines():
    m = re.match(r"(\S+)\.vo .*?: (.*)", l)
    if m:
        deps[m.group(1) + ".v"] = {w[:-3] + ".v" for w in m.group(2).split() if w.endswith(".vo") and w.startswith("theories")}

# which statements mention which: name -> theorems that rest on it
uses = {}
for f in vfiles:
    s = open(f"{base}/{f}").read()
    ms = list(STMT.finditer(s))
    for i, m in enumerate(ms):
        body = s[m.end(): ms[i + 1].start() if i + 1 < len(ms) else len(s)]
        uses[m.group(2)] = set(re.findall(r"[\w']+", body))
rests = {}
for n, ws in uses.items():
    for w in ws:
        if w in uses and w != n:
            rests.setdefault(w, set()).add(n)


def theorems_on(n):
    seen, todo = {n}, [n]
    while todo:
        for k in rests.get(todo.pop(), ()):
            if k not in seen:
                seen.add(k)
                todo.append(k)
    return sorted(k for k in seen if re.match(r"C\d\d", k) and "example" not in k.lower())


SWAPS = [(r"<\?", "<=?"), (r"<=\?", "<?"), (r"=\?", "<=?"), (r"Rlt_dec", "Rle_dec"), (r"Rle_dec", "Rlt_dec"), (r"&&", "||"), (r"\|\|", "&&"),
         (r"\bnegb ", ""), (r"\btrue\b", "false"), (r"\bfalse\b", "true"), (r" \+ ", " - "), (r" - ", " + "), (r" \* ", " + "), (r" / ", " * "),
         (r"\bexistsb\b", "forallb"), (r"\bforallb\b", "existsb"), (r"\bfst\b", "snd"), (r"\bsnd\b", "fst"), (r"\bfirstn\b", "skipn"),
         (r"\bskipn\b", "firstn"), (r"\bmin\b", "max"), (r"\bmax\b", "min"), (r"Rmin\b", "Rmax"), (r"Rmax\b", "Rmin"), (r"\brev ", ""),
         (r" ## ", " # "), (r"\b0\b", "1"), (r"\b1\b", "2"), (r"\b2\b", "3"), (r"\b3\b", "4"), (r"\bhd\b", "last"), (r"\bSome (\w+)\b", "None"),
         (r"Err \w+", "Err UnboundLocal"), (r" \+\+ \w+", ""), (r" \+\+ \[[^\]\[]*\]", ""), (r"\bandb\b", "orb"), (r"\borb\b", "andb"),
         (r"\bx\b", "y"), (r"\by\b", "x"), (r"\by\b", "z"), (r"\bz\b", "x"), (r"\bi\b", "j"), (r"\bj\b", "i"), (r"\ba\b", "b"), (r"\bb\b", "a"),
         (r"\bS (\w+)\b", r"\1"), (r"\blength (\w+)\b", r"(length \1 - 1)"), (r"\bfilter (\(fun [^=]*=>)", r"filter \1 negb @@"),
         (r"\bOk (\w+)\b", "Err UnboundLocal"), (r'"(\w)', r'"x\1'), (r"\bfloor\b", "ceil"), (r"\bceil\b", "floor"), (r"Qle_bool (\w+) (\w+)", r"Qle_bool \2 \1"),
         (r"\bto_comoving\b", "to_physical"), (r"\bto_physical\b", "to_comoving"), (r"\bcombine (\w+) (\w+)", r"combine \2 \1"), (r"\^ (\d)", r"^ (S \1)"),
         (r"\bcos\b", "sin"), (r"\bsin\b", "cos"), (r"\bKeyError\b", "UnboundLocal"), (r"-1\b", "-2"), (r" :: \[\]", " :: nil ++ nil")]


def definitions(s):
    """(name, start, end) of the definitions, without comments."""
    clean = re.sub(r"(?s)\(\*.*?\*\)", lambda m: re.sub(r"[^\n]", " ", m.group(0)), s)
    ms = list(re.finditer(r"^\s*(?:Local )?(Definition|Fixpoint|with)\s+([\w']+)", clean, re.M))
    out = []
    for m in ms:
        e = re.compile(r"\.\s*$", re.M).search(clean, m.end())
        n = re.compile(r"^with\s", re.M).search(clean, m.end(), e.end() if e else len(clean))
        end = n.start() if n else (e.end() if e else len(clean))
        out.append((m.group(2), m.start(), end))
    return clean, out


def edits(s, clean, a, b, rnd, k):
    body = clean[a:b]
    cut = body.find(":=")
    # swap of branches
    cand = []
    for m in re.finditer(r"\bthen ([^\n]{1,60}?)\s+else ([^\n]{1,60}?)(?=$|\.\s|\n)", body):
        cand.append((m.start(1), m.end(2), f"{m.group(2)} else {m.group(1)}", "branches exchanged"))
    for p, r in SWAPS:
        for m in re.finditer(p, body):
            if m.start() < cut or "@@" in r:
                continue
            new = m.expand(r)
            if new != m.group(0):
                cand.append((m.start(), m.end(), new, f"'{m.group(0).strip()}' becomes '{new.strip()}'"))
    rnd.shuffle(cand)
    return cand


def coqc(f, t=150):
    for x in (".vo", ".vos", ".vok", ".glob"):
        try:
            os.remove(f"{scratch}/{f[:-2]}{x}")
        except OSError:
            pass
    try:
        return subprocess.run(["coqc", "-q", "-w", "none", "-Q", "theories", "Verif", f], cwd=scratch, capture_output=True, text=True, timeout=t)
    except subprocess.TimeoutExpired:
        return None


def statement_at(path, line):
    s = open(path).read()
    pos = sum(len(l) for l in s.splitlines(True)[: line - 1]) + 1
    ms = [m for m in STMT.finditer(s) if m.start() <= pos]
    return (ms[-1].group(2), ms[-1], s) if ms else (None, None, s)


def admit(path, m, s):
    e = ENDP.search(s, m.start())
    p = re.compile(r"\bProof\b").search(s, m.start(), e.end())
    if not p:
        return False
    body = s[p.start():e.end()]
    open(path, "w").write(s[: p.start()] + "Admitted." + "\n" * body.count("\n") + s[e.end():])
    return True


def screen(f, new):
    """None: does not type check; otherwise (kind, statement, theorems)."""
    shutil.rmtree(scratch, ignore_errors=True)
    shutil.copytree(base, scratch)
    open(f"{scratch}/{f}", "w").write(new)
    r = coqc(f)
    if r is None or r.returncode:
        return None
    dirty = {f}
    for g in order:
        if g == f or not (deps.get(g, set()) & dirty):
            continue
        dirty.add(g)
        while True:
            r = coqc(g)
            if r is None:
                return ("timeout", g, [])
            if r.returncode == 0:
                break
            m = re.search(r"line (\d+), characters", r.stderr)
            n, mm, s = statement_at(f"{scratch}/{g}", int(m.group(1))) if m else (None, None, "")
            if not n:
                return ("stuck", g, [])
            th = theorems_on(n)
            if th:
                return ("killed", n, th)
            if not admit(f"{scratch}/{g}", mm, s):
                return ("stuck", n, [])
    return ("survivor", "", [])


def main():
    targets = sys.argv[1].split(",")
    k = int(sys.argv[2])
    only = next((a[7:].split(",") for a in sys.argv if a.startswith("--only=")), None)
    logged = [json.loads(l) for l in open(f"{root}/seeded/LOG.jsonl")]
    names = {r["definition"] for r in logged}
    done = {(r["definition"], r["edit"]) for r in logged}
    for t in targets:
        f = f"theories/{t}"
        s = open(f"{base}/{f}").read()
        clean, ds = definitions(s)
        for name, a, b in ds:
            if only and name not in only:
                continue
            if not only and "--all" not in sys.argv and name in names:
                continue
            rnd = random.Random(f"{t}{name}{os.environ.get('SEED', '')}")
            got = 0
            for i, j, new, what in edits(s, clean, a, b, rnd, k):
                if got >= k:
                    break
                ctx = s[a + i - 25: a + i].split("\n")[-1].strip()
                if (name, f"{what} after '{ctx}'") in done:
                    continue
                r = screen(f, s[: a + i] + new + s[a + j:])
                if r is None:
                    continue
                got += 1
                line = s.count("\n", 0, a + i) + 1
                kind, st, th = r
                if kind == "killed":
                    print("killed", t, name, what, st, flush=True)
                    if "--log" in sys.argv:
                        rec = {"definition": name, "edit": f"{what} after '{ctx}'", "claim": "/".join(sorted({x[:3] for x in th})[:6]),
                               "theorems_failed": th[:12], "theorems_tightened": [], "first_broken": st}
                        with open(f"{root}/seeded/LOG.jsonl", "a") as o:
                            o.write(json.dumps(rec) + "\n")
                else:
                    print(kind.upper(), f"{t}:{line}", name, what, "after", repr(ctx), st, flush=True)


main()
