#!/usr/bin/env python3
"""Rebuild a scratch copy of the theories with one definition changed and report
which theorems no longer prove.

usage: mutate.py MUTANTS.json OUT.jsonl [jobs]

MUTANTS.json: list of {"id", "file", "definition", "old", "new", "edit", "claim"}.
Proofs that fail are replaced by Admitted in the scratch copy and the build goes
on, so that every theorem resting on a failed proof shows up in the output of
its Print Assumptions.  With MUT_STOP set, the build stops once a theorem of the
property named in "claim" has failed.  With MUT_TARGET set, only that file and what it
needs are built.
"""
import json, os, re, shutil, subprocess, sys
from concurrent.futures import ThreadPoolExecutor, as_completed

SRC = os.environ.get("MUT_SRC", "/verif/rocq")
STOP = os.environ.get("MUT_STOP")
WORK = "/tmp/mut/work"
LEMMA = re.compile(r"^[ ]*(?:Lemma|Theorem|Example|Corollary|Fact)\s+([\w']+)", re.M)

TARGET = os.environ.get("MUT_TARGET")
def direct(n):
    t = open(f"{SRC}/theories/{n}.v").read()
    ds = set()
    for m in re.finditer(r"From Verif Require (?:Import|Export)?\s*([^.]*)\.", t):
        ds |= set(m.group(1).split())
    return ds

def order():
    """the theories, each after those it requires"""
    names = [l.strip()[len("theories/"):-2] for l in open(f"{SRC}/_CoqProject") if l.strip().endswith(".v")]
    out = []
    def visit(n):
        if n in out or n not in names: return
        for x in sorted(direct(n)): visit(x)
        out.append(n)
    for n in names: visit(n)
    return out

def deps(names):
    d = {n: direct(n) for n in names}
    full = {}
    for n in names:
        s = set()
        for x in d[n]:
            s |= {x} | full.get(x, set())
        full[n] = s
    return full

def run(cmd, cwd, inp=None, timeout=900):
    try:
        p = subprocess.run(cmd, cwd=cwd, input=inp, stdout=subprocess.PIPE, stderr=subprocess.STDOUT,
                           text=True, timeout=timeout)
        return p.returncode, p.stdout
    except subprocess.TimeoutExpired as e:
        return 124, (e.stdout or b"").decode() if isinstance(e.stdout, bytes) else (e.stdout or "")

def lemmas(text):
    """(name, start of proof text, end of proof text)"""
    out = []
    ms = list(LEMMA.finditer(text))
    for i, m in enumerate(ms):
        end = ms[i + 1].start() if i + 1 < len(ms) else len(text)
        q = text.find("Qed.", m.end(), end)
        p = text.find("Proof", m.end(), end)
        if p < 0 or q < 0: continue
        out.append((m.group(1), p, q + 4))
    return out

def failing(wd, n, text):
    """names of the lemmas whose proofs do not go through"""
    src, pos = "Set Default Timeout 120.\n", 0
    for name, p, q in lemmas(text):
        src += text[pos:q] + "\nAdmitted.\nAbout %s.\n" % name
        pos = q
    src += text[pos:]
    rc, out = run(["coqtop", "-q", "-Q", ".", "Verif"], wd, src, timeout=1800)
    names = [x[0] for x in lemmas(text)]
    bad = []
    for name in names:
        if not re.search(r"^(?:[\w']+ < )*%s is opaque" % re.escape(name), out, re.M):
            bad.append(name)
    return bad

def apply(t, mu):
    """replace the first occurrence of "old" inside the definition"""
    m = re.search(r"^ *(?:Definition|Fixpoint|Record|Inductive) %s\b" % re.escape(mu["definition"]), t, re.M)
    if not m: raise ValueError("no such definition: " + mu["definition"])
    e = re.search(r"^ *(?:Definition|Fixpoint|Record|Inductive|End) ", t[m.end():], re.M)
    end = m.end() + e.start() if e else len(t)
    body = t[m.start():end]
    if mu["old"] not in body: raise ValueError("text not found in " + mu["definition"] + ": " + mu["old"])
    return t[:m.start()] + body.replace(mu["old"], mu["new"], 1) + t[end:]

def one(mu):
    wd = f"{WORK}/{mu['id']}"
    shutil.rmtree(wd, ignore_errors=True)
    shutil.copytree(f"{SRC}/theories", wd)
    names = order(); full = deps(names)
    if TARGET: names = [n for n in names if n == TARGET or n in full[TARGET]]
    f = mu["file"]
    t = open(f"{wd}/{f}.v").read()
    try: t = apply(t, mu)
    except ValueError as e: return dict(id=mu["id"], error=str(e))
    open(f"{wd}/{f}.v", "w").write(t)
    admitted, failed, changed = [], [], {f}
    for n in names:
        if n != f and not (full[n] & changed): continue
        path = f"{wd}/{n}.v"
        rc, out = run(["coqc", "-q", "-Q", ".", "Verif", n + ".v"], wd)
        tries = 0
        while rc != 0:
            text = open(path).read()
            if not lemmas(text):
                return dict(id=mu["id"], error=f"{n}: {out[-300:]}")
            bad = failing(wd, n, text)
            if not bad or tries > 3:
                return dict(id=mu["id"], error=f"{n}: not repaired: {out[-300:]}", admitted=admitted)
            for name, p, q in reversed(lemmas(text)):
                if name in bad: text = text[:p] + "Admitted." + text[q:]
            open(path, "w").write(text)
            admitted += [f"{n}.{b}" for b in bad]
            rc, out = run(["coqc", "-q", "-Q", ".", "Verif", n + ".v"], wd)
            tries += 1
        changed.add(n)
        if n.startswith("Properties"):
            thms = re.findall(r"^Print Assumptions ([\w']+)\.", open(path).read(), re.M)
            # the outputs come in order; each is either Closed or a list of axioms
            parts = re.split(r"^(?=Closed under|Axioms:)", out, flags=re.M)[1:]
            for th, pt in zip(thms, parts):
                if not pt.startswith("Closed"): failed.append(th)
            assert len(thms) == len(parts), (n, len(thms), len(parts))
            if STOP and any(th.startswith(mu["claim"][:3]) for th in failed): break
    shutil.rmtree(wd, ignore_errors=True)
    return dict(id=mu["id"], failed=failed, admitted=admitted)

if __name__ == "__main__":
    mus = json.load(open(sys.argv[1])); out = sys.argv[2]
    jobs = int(sys.argv[3]) if len(sys.argv) > 3 else 3
    done = set()
    if os.path.exists(out): done = {json.loads(l)["id"] for l in open(out)}
    os.makedirs(WORK, exist_ok=True)
    todo = [m for m in mus if m["id"] not in done]
    with ThreadPoolExecutor(jobs) as ex:
        fs = {ex.submit(one, m): m for m in todo}
        for fu in as_completed(fs):
            try: r = fu.result()
            except Exception as e: r = dict(id=fs[fu]["id"], error=repr(e))
            with open(out, "a") as o: o.write(json.dumps(r) + "\n")
