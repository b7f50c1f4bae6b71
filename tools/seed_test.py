#!/usr/bin/env python3
"""Tests the theorems against wrong programs.

For each entry of seeded/mutants.json: copy rocq/ to a scratch directory, edit one definition of the
model, and recompile everything behind it.  A proof that fails is replaced by `Admitted.` and
compilation goes on, so that the `Print Assumptions` beneath each property theorem shows which of
them still stand without any failed proof.  The verdicts go to the scratch directory.

With SEED_NEAR set, only the files that the expected theorems rest on are recompiled; `standing`
then says nothing about the other theorems.

usage: seed_test.py [-j N] [id ...]"""
import json, os, re, shutil, subprocess, sys
from concurrent.futures import ThreadPoolExecutor
ROOT = os.path.abspath(os.path.join(os.path.dirname(__file__), ".."))
SCRATCH = "/tmp/seed"
BASE = os.environ.get("SEED_BASE", ROOT)  # where to copy a built rocq/ from
HEAD = re.compile(r"^ *(?:Local |Global |#\[\w+\] )?(Lemma|Theorem|Example|Corollary|Remark|Fact|Instance|Definition|Fixpoint)\s+([\w']+)", re.M)
PROOF = re.compile(r"\bProof(?: using[^.]*)?\.")

def order():
    """The files of _CoqProject, each after those it requires."""
    files = [l.strip() for l in open(f"{BASE}/rocq/_CoqProject") if l.strip().endswith(".v")]
    d, out = deps(files), []
    def visit(f):
        if f in out or f not in d: return
        for g in files:
            if g in d[f]: visit(g)
        out.append(f)
    for f in files: visit(f)
    return out

def deps(files):
    d = {}
    for f in files:
        t = open(f"{BASE}/rocq/{f}").read()
        used = set()
        for m in re.finditer(r"From Verif Require (?:Import |Export )?([\w\s]+?)\.", t):
            used |= {f"theories/{x}.v" for x in m.group(1).split()}
        d[f] = used
    return d

def behind(files, changed):
    d, out = deps(files), {changed}
    for f in files:
        if d[f] & out: out.add(f)
    return [f for f in files if f in out]

def needed(files, expected):
    """The files stating theorems of the expected properties, and all they rest on."""
    d, out = deps(files), set()
    def visit(f):
        if f not in out and f in d:
            out.add(f)
            for g in d[f]: visit(g)
    for f in files:
        if "Properties" in f:
            names = re.findall(r"^Print Assumptions (\w+)\.", open(f"{BASE}/rocq/{f}").read(), re.M)
            if any(n == c or n.startswith(c + "_") for n in names for c in expected): visit(f)
    return out

def compile(dir, f, log):
    failed = []
    path = f"{dir}/{f}"
    for _ in range(80):
        try:
            r = subprocess.run(["coqc", "-q", "-w", "-all", "-Q", "theories", "Verif", f], cwd=dir,
                               capture_output=True, text=True, errors="replace", timeout=1500)
        except subprocess.TimeoutExpired:
            return failed, None, "timeout"
        if r.returncode == 0: return failed, r.stdout, None
        m = re.search(r'line (\d+), characters', r.stderr)
        if not m: return failed, None, r.stderr[-300:]
        text = open(path).read()
        pos = sum(len(l) + 1 for l in text.split("\n")[:int(m.group(1)) - 1])
        eol = text.index("\n", pos)
        heads = [h for h in HEAD.finditer(text) if h.start() <= eol]
        if not heads: return failed, None, "no proof at the error: " + r.stderr[-300:]
        h = heads[-1]
        pm = PROOF.search(text, h.start())
        p = pm.start() if pm else -1
        e = re.compile(r"\b(Qed|Defined)\.").search(text, p)
        if p < 0 or not e or e.end() < pos or (p > eol and text[h.start():p].count("\n") > 60):
            return failed, None, "not in a proof: " + r.stderr[-300:]
        if pos < p and eol < p: return failed, None, "statement: " + r.stderr[-300:]
        failed.append(h.group(2))
        print(dir, "failed", f, h.group(2), file=log, flush=True)
        text = text[:p] + pm.group(0) + " Admitted." + text[e.end():]
        open(path, "w").write(text)
    return failed, None, "too many failures"

def run(mu):
    dir = f"{SCRATCH}/{mu['id']}"
    log = open(f"{SCRATCH}/{mu['id']}.log", "w")
    if os.path.exists(dir): shutil.rmtree(dir)
    shutil.copytree(f"{BASE}/rocq", dir)
    files = order()
    f = f"theories/{mu['file']}"
    edits = mu["edits"] if "edits" in mu else [[mu["old"], mu["new"]]]
    text = open(f"{dir}/{f}").read()
    for old, new in edits:
        if text.count(old) != mu.get("count", 1):
            res = {"id": mu["id"], "error": f"{text.count(old)} matches of {old!r}"}
            json.dump(res, open(f"{SCRATCH}/{mu['id']}.json", "w")); return res
        text = text.replace(old, new)
    open(f"{dir}/{f}", "w").write(text)
    todo = behind(files, f)
    if os.environ.get("SEED_NEAR") and mu["expected"]:
        near = needed(files, mu["expected"])
        todo = [x for x in todo if x in near]
    for x in todo:
        if os.path.exists(f"{dir}/{x}o"): os.remove(f"{dir}/{x}o")
        t = open(f"{dir}/{x}").read()
        if x != f: open(f"{dir}/{x}", "w").write("Set Default Timeout 300. " + t)
    failed, broken, error = {}, [], None
    standing = []
    for x in todo:
        fl, out, error = compile(dir, x, log)
        if fl: failed[os.path.basename(x)] = fl
        if error: error = f"{x}: {error}"; break
        if "Properties" in x:
            text = open(f"{dir}/{x}").read()
            names = re.findall(r"^Print Assumptions (\w+)\.", text, re.M)
            blocks = re.split(r"^(?=Closed under|Axioms:)", out, flags=re.M)[1:]
            assert len(names) == len(blocks), (x, len(names), len(blocks))
            for n, b in zip(names, blocks):
                (standing if b.startswith("Closed") else broken).append(n)
    res = {"id": mu["id"], "definition": mu["definition"], "edit": mu["edit"], "claim": mu["claim"],
           "expected": mu["expected"], "failed_lemmas": failed, "theorems_failed": broken,
           "standing": standing, "error": error,
           "survivors": [c for c in mu["expected"] if not any(b == c or b.startswith(c + "_") for b in broken)]}
    json.dump(res, open(f"{SCRATCH}/{mu['id']}.json", "w"), indent=1)
    shutil.rmtree(dir)
    print(mu["id"], "error" if error else "ok", "survivors:", res["survivors"], "failed:", broken, flush=True)
    return res

if __name__ == "__main__":
    args = sys.argv[1:]
    j = 1
    if args[:1] == ["-j"]: j = int(args[1]); args = args[2:]
    mus = json.load(open(f"{ROOT}/seeded/mutants.json"))
    os.makedirs(SCRATCH, exist_ok=True)
    todo = [m for m in mus if (m["id"] in args if args else not os.path.exists(f"{SCRATCH}/{m['id']}.json"))]
    with ThreadPoolExecutor(j) as ex: list(ex.map(run, todo))
