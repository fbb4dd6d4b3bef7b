"""Apply wrong-program edits to a scratch copy of the model and report the theorems that fail.

usage: mutate.py edits.json [--log]     (edits: [{file, definition, old, new, edit, claim}])

Every lemma whose proof breaks is admitted in the scratch copy so that the build continues; a
theorem counts as failed if its own proof breaks or if Print Assumptions shows that it rests on
such a lemma.  The scratch copy is /tmp/mut; /verif is only touched to append to the log.
"""
import json, os, re, shutil, subprocess, sys
root = os.path.dirname(os.path.dirname(os.path.abspath(__file__)))
scratch = "/tmp/mut" + os.environ.get("MUT", "")
base = scratch + "base"      # the sources as they were when the run started
shutil.rmtree(base, ignore_errors=True)
shutil.copytree(f"{root}/rocq", base)


def order():
    out = subprocess.run("coqdep -Q theories Verif -sort " + " ".join(files()), shell=True,
                         cwd=base, capture_output=True, text=True).stdout
    return [os.path.normpath(f) for f in out.split()]


def files():
    return [l.strip() for l in open(f"{base}/_CoqProject") if l.strip().endswith(".v")]


def deps():
    out = subprocess.run("coqdep -Q theories Verif " + " ".join(files()), shell=True,
                         cwd=base, capture_output=True, text=True).stdout
    d = {}
    for l in out.splitlines():
        m = re.match(r"(\S+)\.vo .*?: (.*)", l)
        if m:
            d[m.group(1) + ".v"] = {w[:-3] + ".v" for w in m.group(2).split()
                                    if w.endswith(".vo") and w.startswith("theories")}
    return d


START = re.compile(r"^[ \t]*(?:#\[.*\]\s*)?(?:Local |Global )?(Lemma|Theorem|Example|Corollary|Fact|Instance|Remark)\s+(\w+)", re.M)
ENDP = re.compile(r"\b(Qed|Defined|Abort)\.")


def coqc(f):
    try:
        return subprocess.run(["coqc", "-q", "-w", "none", "-Q", "theories", "Verif", f], cwd=scratch,
                              capture_output=True, text=True, timeout=int(os.environ.get("MUTT", "400")))
    except subprocess.TimeoutExpired:
        return None


def admit(path, line):
    """Admit the statement whose proof contains the line; return its name."""
    s = open(path).read()
    pos = sum(len(l) for l in s.splitlines(True)[: line - 1]) + 1
    ms = [m for m in START.finditer(s) if m.start() <= pos]
    if not ms:
        return None
    m = ms[-1]
    e = ENDP.search(s, m.start())
    if e is None or e.end() < pos:
        return None
    p = re.compile(r"\bProof\b").search(s, m.start(), e.end())
    if p is None:
        return None
    body = s[p.start():e.end()]
    s = s[: p.start()] + "Admitted." + "\n" * body.count("\n") + s[e.end():]
    open(path, "w").write(s)
    return m.group(2)


def run(mut, log):
    shutil.rmtree(scratch, ignore_errors=True)
    shutil.copytree(base, scratch)
    path = f"{scratch}/theories/{mut['file']}"
    s = open(path).read()
    assert s.count(mut["old"]) >= 1, ("old text not found", mut)
    i = s.index(mut["old"], s.index(mut["after"])) if "after" in mut else s.index(mut["old"])
    open(path, "w").write(s[:i] + mut["new"] + s[i + len(mut["old"]):])
    d = deps()
    start = f"theories/{mut['file']}"
    dirty, broken, failed = {start}, [], []
    for f in order():
        if f != start and not (d.get(f, set()) & dirty):
            continue
        dirty.add(f)
        while True:
            r = coqc(f)
            if r is None:
                print("TIMEOUT", f)
                return
            if r.returncode == 0:
                break
            m = re.search(r'line (\d+), characters', r.stderr)
            name = m and admit(f"{scratch}/{f}", int(m.group(1)))
            if not name:
                print("CANNOT CONTINUE", f, r.stderr[:600])
                return
            broken.append(name)
            if re.match(r"C\d\d", name) and "example" not in name.lower():
                failed.append(name)
        if f.endswith("Theorems.v"):
            for name, rest in re.findall(r"(?s)@@(\w+)\n(.*?)(?=@@|\Z)", assumptions(f)):
                ax = set(re.findall(r"^(?:[\w']+\.)*([\w']+)", rest, re.M))
                if ax & set(broken) and name not in failed:
                    failed.append(name)
    rec = {"definition": mut["definition"], "edit": mut["edit"], "claim": mut["claim"],
           "theorems_failed": sorted(failed), "theorems_tightened": mut.get("tightened", [])}
    print(json.dumps({**rec, "broken": broken}))
    if log:
        with open(f"{root}/seeded/LOG.jsonl", "a") as o:
            o.write(json.dumps(rec) + "\n")


def assumptions(f):
    s = open(f"{scratch}/{f}").read()
    names = re.findall(r"^Theorem (C\d\d\w*)", s, re.M)
    mod = os.path.basename(f)[:-2]
    t = f"From Verif Require Import {mod}.\n"
    open(f"{scratch}/pa.v", "w").write(t)
    out = ""
    for n in names:
        t += f"Print Assumptions {n}.\n"
    open(f"{scratch}/pa.v", "w").write(t)
    r = coqc("pa.v").stdout
    parts = re.split(r"(?m)^(?=Axioms:|Closed under)", r)[1:]
    assert len(parts) == len(names), (len(parts), len(names), r[:300])
    return "".join(f"@@{n}\n{p}" for n, p in zip(names, parts))


muts = json.load(open(sys.argv[1]))
already = set()
if "--log" in sys.argv:
    for l in open(f"{root}/seeded/LOG.jsonl"):
        r = json.loads(l)
        already.add((r["definition"], r["edit"], bool(r["theorems_tightened"])))
for m in muts:
    if (m["definition"], m["edit"], bool(m.get("tightened"))) in already:
        continue
    run(m, "--log" in sys.argv)
    sys.stdout.flush()
