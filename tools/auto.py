#!/usr/bin/env python3
"""Small automatic edits of the model, one at a time, in a scratch copy.

usage: auto.py gen MUTANTS.json [seed]       list all edits, shuffled
       auto.py run MUTANTS.json OUT.jsonl [jobs] [limit]

Stops at the first proof that fails; a failing Example does not count.  What is
left ("survived") are edits no theorem notices.
"""
import json, os, random, re, shutil, sys
from concurrent.futures import ThreadPoolExecutor, as_completed
sys.path.insert(0, os.path.dirname(os.path.abspath(__file__)))
import mutate
from mutate import SRC, run, order, deps

MODEL = os.environ.get("MUT_MODEL", "Base Arith Strings Bytes BigInt Bv Map Indexed Array Serde Fmt").split()
WORK = "/tmp/mut/auto"
PREFIX = os.environ.get("MUT_PREFIX", "a")
DEF = re.compile(r"^ *(?:Definition|Fixpoint|with) ([\w']+)", re.M)

SWAPS = [("<=?", "<?"), ("<?", "<=?"), ("=?", "<=?"), (" + ", " - "), (" - ", " + "), (" * ", " + "),
         (" / ", " mod "), (" mod ", " / "), ("N.land", "N.lor"), ("N.lor", "N.land"), ("N.lxor", "N.lor"),
         ("&&", "||"), ("||", "&&"), ("wshl", "wshr"), ("wshr", "wshl"), ("true", "false"), ("false", "true"),
         ("debug_assert m", "debug_assert Release"), ("skipn", "firstn"), ("firstn", "skipn"),
         ("InvalidDigit", "ExceedsWidth"), ("ExceedsWidth", "InvalidDigit"),
         ("rev ", "id "), ("::", "::0::"), ("negb", "id"),
         ("c_minus", "c_plus"), ("c_plus", "c_minus"), ("Z.of_N", "Z.opp (Z.of_N"), ("as_u32", "id"), ("as_u64", "id")]

def blank_comments(t):
    out, depth, i, instr = [], 0, 0, False
    while i < len(t):
        if not depth and t[i] == '"': instr = not instr; out.append(t[i]); i += 1; continue
        if instr: out.append(t[i]); i += 1; continue
        if t.startswith("(*", i): depth += 1; out.append("  "); i += 2; continue
        if depth and t.startswith("*)", i): depth -= 1; out.append("  "); i += 2; continue
        out.append("\n" if t[i] == "\n" else (" " if depth else t[i])); i += 1
    return "".join(out)

def gen(seed):
    mus = []
    for f in MODEL:
        t = open(f"{SRC}/theories/{f}.v").read()
        b = blank_comments(t)
        ds = list(DEF.finditer(b))
        for k, d in enumerate(ds):
            end = ds[k + 1].start() if k + 1 < len(ds) else len(b)
            st = re.search(r"^ *(?:Lemma|Theorem|Record|Inductive|End|Notation|Section)\b", b[d.end():end], re.M)
            if st: end = d.end() + st.start()
            s = b.find(":=", d.end(), end)
            if s < 0: continue
            def add(p, q, new, kind):
                mus.append(dict(file=f, definition=d.group(1), pos=p, end=q, old=t[p:q], new=new, kind=kind))
            for a, c in SWAPS:
                i = s
                while True:
                    i = b.find(a, i, end)
                    if i < 0: break
                    prev, nxt = b[i-1], b[i+len(a)]
                    word = a[0].isalpha()
                    if not (word and (prev.isalnum() or prev in "_.'" or nxt.isalnum() or nxt == "_" and False)) \
                       and not (a in ("<?", "=?") and prev in "<=") :
                        add(i, i + len(a), c, "swap")
                    i += len(a)
            for m in re.finditer(r"(?<![\w.'])(\d+)(?![\w.'])", b[s:end]):
                n = int(m.group(1))
                if n > 10**6: continue
                add(s + m.start(), s + m.end(), str(n + 1), "num")
                if n: add(s + m.start(), s + m.end(), str(n - 1), "num")
            for m in re.finditer(r"\b(\w+) m (\(?\w+\)?) (\w+)\b", b[s:end]):
                if m.group(2) != m.group(3):
                    add(s + m.start(), s + m.end(), f"{m.group(1)} m {m.group(3)} {m.group(2)}", "args")
            for m in re.finditer(r"\bif ([^\n]*?) then\b", b[s:end]):
                add(s + m.start(), s + m.end(), f"if negb ({m.group(1)}) then", "cond")
            for m in re.finditer(r"let\* (\w+) := ([^\n]*?) in\b", b[s:end]):
                if m.group(1) == "_": add(s + m.start(), s + m.end(), "let* _ := Ok tt in", "drop")
    random.Random(seed).shuffle(mus)
    for i, m in enumerate(mus): m["id"] = f"{PREFIX}{i:04d}"
    return mus

def where(text, out):
    m = re.search(r"line (\d+), characters", out)
    if not m: return None, None
    line = int(m.group(1))
    off = sum(len(l) + 1 for l in text.split("\n")[:line - 1])
    last = None
    for x in re.finditer(r"^[ ]*(Lemma|Theorem|Example|Corollary|Fact|Definition|Fixpoint|Inductive)\s+([\w']+)", text, re.M):
        if x.start() <= off + 1: last = x
        else: break
    return (last.group(1), last.group(2)) if last else (None, None)

def one(mu):
    wd = f"{WORK}/{mu['id']}"
    shutil.rmtree(wd, ignore_errors=True)
    shutil.copytree(f"{SRC}/theories", wd, copy_function=os.link)
    names = order(); full = deps(names); f = mu["file"]
    t = open(f"{wd}/{f}.v").read()
    assert t[mu["pos"]:mu["end"]] == mu["old"]
    changed, examples = {f}, []
    def put(n, text):
        os.remove(f"{wd}/{n}.v"); open(f"{wd}/{n}.v", "w").write(text)
    put(f, t[:mu["pos"]] + mu["new"] + t[mu["end"]:])
    res = dict(mu)
    try:
        for n in names:
            if n != f and not (full[n] & changed): continue
            for _ in range(30):
                for e in ("vo", "vos", "vok", "glob"):
                    try: os.remove(f"{wd}/{n}.{e}")
                    except FileNotFoundError: pass
                rc, out = run(["coqc", "-q", "-Q", ".", "Verif", n + ".v"], wd, timeout=600)
                if rc == 0: break
                text = open(f"{wd}/{n}.v").read()
                kind, name = where(text, out)
                if rc == 124: res.update(result="killed", by=f"{n}.timeout"); return res
                if n in MODEL or name is None:
                    res.update(result="stillborn", by=out[-200:]); return res
                if kind == "Example":
                    i = re.search(r"^[ ]*Example\s+%s\b" % re.escape(name), text, re.M).start()
                    p = text.index("Proof", i); q = text.index("Qed.", p) + 4
                    put(n, text[:p] + "Proof. Admitted." + text[q:]); examples.append(name); continue
                res.update(result="killed", by=f"{n}.{name}"); return res
            else:
                res.update(result="error", by=n); return res
            changed.add(n)
        res.update(result="survived", examples=examples)
        return res
    finally:
        shutil.rmtree(wd, ignore_errors=True)

if __name__ == "__main__":
    if sys.argv[1] == "gen":
        ms = gen(int(sys.argv[3]) if len(sys.argv) > 3 else 1)
        json.dump(ms, open(sys.argv[2], "w"), indent=0)
        print(len(ms))
    else:
        mus = json.load(open(sys.argv[2])); out = sys.argv[3]
        jobs = int(sys.argv[4]) if len(sys.argv) > 4 else 1
        limit = int(sys.argv[5]) if len(sys.argv) > 5 else len(mus)
        done = set()
        if os.path.exists(out): done = {json.loads(l)["id"] for l in open(out)}
        os.makedirs(WORK, exist_ok=True)
        with ThreadPoolExecutor(jobs) as ex:
            fs = {ex.submit(one, m): m for m in mus[:limit] if m["id"] not in done}
            for fu in as_completed(fs):
                try: r = fu.result()
                except Exception as e: r = dict(fs[fu], result="error", by=repr(e))
                with open(out, "a") as o: o.write(json.dumps(r) + "\n")
