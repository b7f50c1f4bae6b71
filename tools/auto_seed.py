#!/usr/bin/env python3
"""Looks for wrong programs that no proof notices.

Makes small edits (an operator, a number, a constructor, a text) in the definitions of the Model*.v
files, and recompiles what lies behind the edited file until something fails.  An edit that does not
compile itself is no program; one that breaks a proof is noticed; one that breaks nothing is a
survivor, to be looked at by hand.  The verdicts go to the scratch directory.

usage: auto_seed.py [-j N] [-n COUNT] [-s SEED] [file ...]"""
import json, os, random, re, shutil, subprocess, sys, time
from concurrent.futures import ThreadPoolExecutor
sys.path.insert(0, os.path.dirname(os.path.abspath(__file__)))
import seed_test as st
SCRATCH = os.environ.get("AUTO_SCRATCH", "/tmp/auto")

def regions(t):
    """(name, start, end) of the definitions, without comments."""
    blank = re.sub(r"\(\*.*?\*\)", lambda m: re.sub(r"[^\n]", " ", m.group(0)), t, flags=re.S)
    out = []
    for m in re.finditer(r"^ *(?:Definition|Fixpoint|with) +([\w']+)", blank, re.M):
        e = re.search(r"\.(\s|$)", blank[m.end():])
        # a full stop inside a text does not end the definition
        pos = m.end()
        while True:
            e = re.search(r"\.(\s|$)", blank[pos:])
            if not e: break
            stop = pos + e.start()
            if blank[m.start():stop].count('"') % 2 == 0: break
            pos = stop + 1
        if e: out.append((m.group(1), m.start(), stop))
    return blank, out

SWAPS = [(r"<\?", "<=?"), (r"<=\?", "<?"), (r"&&", "||"), (r"\|\|", "&&"), (r"\bnegb ", ""), (r"\bGt\b", "Lt"), (r"\bLt\b", "Gt"),
  (r"\bfirstn\b", "skipn"), (r"\bskipn\b", "firstn"), (r"\bfst\b", "snd"), (r"\bsnd\b", "fst"), (r"\btrue\b", "false"), (r"\bfalse\b", "true"),
  (r"\bSome\b (\w+) =>", None), (r" \+ ", " - "), (r" - ", " + "), (r" \* ", " + "), (r"\brev ", "id "), (r"\bNat\.ltb\b", "Nat.leb"), (r"\bNat\.leb\b", "Nat.ltb"),
  (r"\bmin\b", "max"), (r"\bmax\b", "min"), (r"\bexistsb\b", "forallb"), (r"\bforallb\b", "existsb"), (r"Z\.land\b", "Z.lor"), (r"Z\.lor\b", "Z.land"),
  (r"Z\.shiftl\b", "Z.shiftr"), (r"Z\.shiftr\b", "Z.shiftl"), (r"\bJack\b", "Queen"), (r"\bAce\b", "King"), (r"\bTwo\b", "Three"), (r"\bClubs\b", "Hearts"),
  (r"\bSpades\b", "Diamonds"), (r"\bBrightGreen\b", "BrightRed"), (r"\bBold; ?", ""), (r"; ?Bold\b", ""), (r"\[\]", None),
  (r"=\?", "<=?"), (r"\bIndexOutOfBounds\b", "MissingKey"), (r"\bArithmeticOverflow\b", "UnreachableReached"), (r"\bUnwrapFailed\b", "AssertFailed"),
  (r"\bOk\b (\w+) =>", None)]

def edits(f):
    t = open(f"{st.BASE}/rocq/theories/{f}").read()
    blank, rs = regions(t)
    out = []
    for name, a, b in rs:
        body = blank[a:b]
        strings = [(m.start(), m.end()) for m in re.finditer(r'"[^"]*"', body)]
        instr = lambda p: any(x <= p < y for x, y in strings)
        head = re.search(r":=", body)
        if not head: continue
        for pat, rep in SWAPS:
            if rep is None: continue
            for m in re.finditer(pat, body):
                if m.start() > head.end() and not instr(m.start()):
                    out.append((f, name, a + m.start(), a + m.end(), rep))
        for m in re.finditer(r"\bif (.+?) then", body):
            if m.start() > head.end() and not instr(m.start()):
                out.append((f, name, a + m.start(), a + m.end(), f"if negb ({m.group(1)}) then"))
        for m in re.finditer(r"(?<![\w.'])\d+(?![\w'])", body):
            if m.start() > head.end() and not instr(m.start()):
                out.append((f, name, a + m.start(), a + m.end(), str(int(m.group(0)) + 1)))
        for m in re.finditer(r'"([^"]*)"', body):
            s = m.group(1)
            if s:
                k = len(s) // 2
                out.append((f, name, a + m.start() + 1 + k, a + m.start() + 2 + k, "x" if s[k] != "x" else "y"))
    return t, out

def main():
    a = sys.argv[1:]
    j, n, seed = 1, 20, 1
    while a and a[0] in ("-j", "-n", "-s"):
        v = int(a[1])
        if a[0] == "-j": j = v
        elif a[0] == "-n": n = v
        else: seed = v
        a = a[2:]
    os.makedirs(SCRATCH, exist_ok=True)
    files = st.order()
    models = a or [os.path.basename(f) for f in files if os.path.basename(f).startswith("Model")]
    texts, pool = {}, {}
    for f in models:
        texts[f], es = edits(f)
        for e in es: pool.setdefault((e[0], e[1]), []).append(e)
    rnd = random.Random(seed)
    keys = sorted(pool)
    rnd.shuffle(keys)
    picked = []
    while len(picked) < n and keys:
        for k in list(keys):
            if len(picked) == n: break
            es = pool[k]
            if not es: keys.remove(k); continue
            picked.append(es.pop(rnd.randrange(len(es))))
    dirs = []
    for w in range(j):
        d = f"{SCRATCH}/w{seed}_{w}"
        if os.path.exists(d): shutil.rmtree(d)
        shutil.copytree(f"{st.BASE}/rocq", d)
        dirs.append(d)
    def work(item):
        i, (f, name, x, y, rep) = item
        d = dirs.pop()
        try:
            t = texts[f]
            new = t[:x] + rep + t[y:]
            line = t.count("\n", 0, x) + 1
            p = f"{d}/theories/{f}"
            open(p, "w").write(new)
            touched, verdict, where, t0 = [], "SURVIVED", "", time.time()
            for g in st.behind(files, f"theories/{f}"):
                touched.append(g)
                try:
                    r = subprocess.run(["coqc", "-q", "-w", "-all", "-Q", "theories", "Verif", g], cwd=d, capture_output=True, text=True, timeout=1500)
                    bad, msg = r.returncode != 0, r.stderr
                except subprocess.TimeoutExpired:
                    bad, msg = True, "timeout"
                if bad:
                    verdict = "stillborn" if g == f"theories/{f}" else "killed"
                    m = re.search(r'File "([^"]*)", line (\d+)', msg)
                    where = f"{g}:{m.group(2)}" if m else f"{g} {msg[-60:]!r}"
                    break
            rec = dict(n=i, seed=seed, file=f, definition=name, line=line, old=t[x:y], new=rep, context=t[t.rfind("\n", 0, x) + 1:t.find("\n", y)].strip(), verdict=verdict, where=where, seconds=round(time.time() - t0))
            with open(f"{SCRATCH}/results.jsonl", "a") as o: o.write(json.dumps(rec) + "\n")
            print(verdict, f"{f}:{line}", name, repr(t[x:y]), "->", repr(rep), where, rec["seconds"], flush=True)
            for g in touched:
                stem = f"{d}/{g}"[:-2]
                for ext in (".v", ".vo", ".vok", ".vos", ".glob"):
                    src = f"{st.BASE}/rocq/{g}"[:-2] + ext
                    if os.path.exists(src): shutil.copy2(src, stem + ext)
        finally:
            dirs.append(d)
    with ThreadPoolExecutor(j) as ex: list(ex.map(work, enumerate(picked)))

if __name__ == "__main__": main()
