#!/usr/bin/env python3
"""Tests the theorems against a wrong program.

mutate.py FILE.json: applies each edit of the JSON list [{"file","old","new","def","edit","claim"}] to a scratch copy of the model,
rebuilds everything that depends on it and prints which theorems no longer prove.  A proof that breaks is admitted in the scratch copy, so that the build goes on
and the property theorems that rest on it are found from what Print Assumptions lists.  Nothing in /verif is changed."""
import sys, os, re, json, shutil, subprocess, concurrent.futures as cf

SRC = os.environ.get("MUTATE_SRC", "/verif/rocq/theories")  # a compiled copy
START = re.compile(r"^\s*(?:#\[[^\]]*\]\s*)?(?:Local |Global )?(Lemma|Theorem|Example|Corollary|Fact|Remark|Instance|Definition|Fixpoint|Program)\s+([\w']+)", re.M)

def deps():
    files = sorted(f for f in os.listdir(SRC) if f.endswith(".v"))
    out = subprocess.run(["coqdep", "-Q", ".", "Verif"] + files, cwd=SRC, capture_output=True, text=True).stdout
    d = {}
    for line in out.splitlines():
        if ":" not in line: continue
        left, right = line.split(":", 1)
        m = re.search(r"(\S+)\.vo\b", left)
        if m and not left.startswith("%"):
            d[m.group(1)] = [x[:-3] for x in right.split() if x.endswith(".vo")]
    return d

def compile(dirn, f, limit=400):
    try:
        p = subprocess.run(["coqc", "-Q", ".", "Verif", f + ".v"], cwd=dirn, capture_output=True, text=True, timeout=limit)
        return p.returncode, p.stdout, p.stderr
    except subprocess.TimeoutExpired:
        try:
            p = subprocess.run(["coqc", "-time", "-Q", ".", "Verif", f + ".v"], cwd=dirn, capture_output=True, text=True, timeout=limit)
            o = p.stdout
        except subprocess.TimeoutExpired as e:
            o = (e.stdout or b"").decode()
        ends = [int(x) for x in re.findall(r"^Chars \d+ - (\d+)", o, re.M)]
        b = open(f"{dirn}/{f}.v", "rb").read()
        line = b[:(ends[-1] if ends else 0) + 2].count(b"\n") + 1
        return 1, "", f'File "./{f}.v", line {line}, characters 0-1:\nError: timeout'

def admit(dirn, f, line):
    """Admit the proof around a line; the name of its statement, or None."""
    p = f"{dirn}/{f}.v"
    s = open(p).read()
    lines = s.split("\n")
    pos = sum(len(x) + 1 for x in lines[:line - 1]) + len(lines[line - 1])
    cands = [m for m in START.finditer(s) if m.start() <= pos]
    for m in reversed(cands[-1:]):
        pr = re.compile(r"\bProof\b[^.]*\.").search(s, m.start())
        if not pr: return None
        q = re.compile(r"\b(Qed|Defined)\.").search(s, pr.end() - 1)
        if not q or q.end() < pos - len(lines[line - 1]): return None
        nl = s[pr.end():q.end()].count("\n")
        s = s[:pr.end()] + " Admitted." + "\n" * nl + s[q.end():]
        open(p, "w").write(s)
        return m.group(2)

def one(mut, d, n):
    dirn = f"/tmp/mut/{n}"
    shutil.rmtree(dirn, ignore_errors=True)
    shutil.copytree(SRC, dirn)
    p = f"{dirn}/{mut['file']}.v"
    s = open(p).read()
    if s.count(mut["old"]) != 1:
        shutil.rmtree(dirn)
        return {"error": f"old text occurs {s.count(mut['old'])} times"}
    open(p, "w").write(s.replace(mut["old"], mut["new"]))
    dirty, order = set(), []
    done = set()
    def topo(f):
        if f in done: return
        done.add(f)
        for g in d.get(f, []): topo(g)
        if f == mut["file"] or any(g in dirty for g in d.get(f, [])):
            dirty.add(f); order.append(f)
    for f in d: topo(f)
    for f in order:
        for e in (".vo", ".vok", ".vos", ".glob"):
            if os.path.exists(f"{dirn}/{f}{e}"): os.remove(f"{dirn}/{f}{e}")
    broken, assumed, dead = [], {}, []
    def build(f):
        mine = []
        for _ in range(60):
            rc, out, err = compile(dirn, f)
            if rc == 0: return f, mine, out, None
            m = [x for x in re.finditer(r'File "\./(\w+)\.v", line (\d+), characters [\d-]+:\s*\nError', err)]
            if not m: return f, mine, "", err[-300:]
            name = admit(dirn, f, int(m[-1].group(2)))
            if name is None: return f, mine, "", f"line {m[-1].group(2)}: " + err[m[-1].end():][:200]
            if name in mine: return f, mine, "", "statement of " + name + " " + err[-200:]
            mine.append(name)
        return f, mine, "", "too many"
    left, built, bad = list(order), set(), set()
    with cf.ThreadPoolExecutor(4) as ex:
        run = {}
        while left or run:
            for f in list(left):
                ds = [g for g in d.get(f, []) if g in dirty]
                if any(g in bad for g in ds):
                    left.remove(f); bad.add(f); dead.append((f, "depends on a dead file")); continue
                if all(g in built for g in ds):
                    left.remove(f); run[ex.submit(build, f)] = f
            if not run: break
            fin, _ = cf.wait(run, return_when=cf.FIRST_COMPLETED)
            for r in fin:
                f, mine, out, why = r.result(); del run[r]
                broken += [f"{f}.{x}" for x in mine]
                if why: bad.add(f); dead.append((f, why)); continue
                built.add(f)
                if f.startswith("Properties"):
                    text = open(f"{dirn}/{f}.v").read()
                    names = re.findall(r"^Print Assumptions (\S+)\.", text, re.M)
                    blocks = re.split(r"^(?=Axioms:|Closed under)", out, flags=re.M)[1:]
                    for nme, blk in zip(names, blocks): assumed[nme] = blk
    short = {b.split(".")[1] for b in broken}
    prop = []
    for nme, blk in assumed.items():
        ax = set(re.findall(r"^([\w.']+)\s*:", blk, re.M)) | set(re.findall(r"^([\w.']+)$", blk, re.M))
        if nme in short or any(a.split(".")[-1] in short for a in ax): prop.append(nme)
    exs = [b for b in broken if b.startswith("Properties") and b.split(".")[1] not in prop]
    shutil.rmtree(dirn)
    return {"lemmas": broken, "theorems": sorted(prop), "examples": exs, "dead": dead}

if __name__ == "__main__":
    muts = json.load(open(sys.argv[1]))
    d = deps()
    for i, m in enumerate(muts):
        r = one(m, d, f"{os.path.basename(sys.argv[1])[:-5]}-{i}")
        print(json.dumps({"i": i, "def": m["def"], "edit": m["edit"], **r}), flush=True)
        with open(sys.argv[1][:-5] + ".out", "a") as o: o.write(json.dumps({**m, **r}) + "\n")
