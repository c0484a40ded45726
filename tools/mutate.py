#!/usr/bin/env python3
"""Run the proofs against edited copies of the model.

usage: mutate.py MUTANTS.py OUT.jsonl [name ...]
MUTANTS.py defines M = [(name, file, old, new, claim), ...].  Every mutant is applied to a copy of the built tree
in /tmp/mut; a lemma whose proof fails is recorded and replaced by Admitted there, so that the later ones are tried
as well.  Theorems of the manifest that rest on a failing lemma are listed as failed.
With STOP=n in the environment a mutant is left as soon as n lemmas have failed; smaller rebuilds go first."""
import sys, os, re, json, subprocess, shutil, concurrent.futures as cf, collections
SRC = "/verif/rocq"; BASE = "/tmp/mut/base"; WORK = "/tmp/mut/work"
SKIP = {"Validation", "ValidationData"}; STOP = int(os.environ.get("STOP", "100000"))
KIND = r"^\s*(?:Local |Global |#\[[^\]]*\] )*(Theorem|Lemma|Corollary|Example|Instance|Definition|Fixpoint|Fact|Remark)\s+([\w']+)"

def deps():
    out = subprocess.run("coqdep -Q theories Verif theories/*.v", shell=True, cwd=SRC, capture_output=True, text=True).stdout
    d = {}
    for l in out.splitlines():
        m = re.match(r"theories/(\w+)\.vo .*?: (.*)", l)
        if m: d[m.group(1)] = [x[9:-3] for x in m.group(2).split() if x.endswith(".vo") and x.startswith("theories/")]
    return d
def refs():
    """name -> names it mentions (statement and proof), from the .glob files"""
    g = collections.defaultdict(set)
    for f in os.listdir(SRC + "/theories"):
        if not f.endswith(".glob"): continue
        cur = None
        ev = []
        for l in open(f"{SRC}/theories/{f}", errors="replace"):
            m = re.match(r"(def|prf|inst|coe|ind|rec|scheme|thm|ax) (\d+):\d+ \S+ (\S+)", l)
            if m: ev.append((int(m.group(2)), 0, m.group(3))); continue
            m = re.match(r"R(\d+):\d+ (Verif\.\S+) \S+ (\S+) ", l)
            if m: ev.append((int(m.group(1)), 1, m.group(3)))
        for _, k, n in sorted(ev):
            if k == 0: cur = n
            elif cur: g[cur].add(n)
    return g
def resting_on(g, bad, wanted):
    rev = collections.defaultdict(set)
    for a, bs in g.items():
        for b in bs: rev[b].add(a)
    seen = set(bad); todo = list(bad)
    while todo:
        x = todo.pop()
        for y in rev[x]:
            if y not in seen: seen.add(y); todo.append(y)
    return sorted(t for t in wanted if t in seen)
def compile(f, tmo):
    try:
        p = subprocess.run(["coqc", "-time", "-w", "none", "-Q", "theories", "Verif", f"theories/{f}.v"], cwd=WORK, capture_output=True, text=True, timeout=tmo, errors="replace")
        if p.returncode == 0: return f, None, ""
        m = re.search(r'File "[^"]*", line (\d+), characters', p.stderr)
        return f, int(m.group(1)) if m else -1, p.stderr[-400:]
    except subprocess.TimeoutExpired as e:
        o = (e.stdout or b"").decode(errors="replace"); c = re.findall(r"^Chars \d+ - (\d+)", o, re.M)
        src = open(f"{WORK}/theories/{f}.v", "rb").read(); pos = int(c[-1]) if c else 0
        while pos < len(src) and src[pos:pos+1].isspace(): pos += 1
        return f, src[:pos].count(b"\n") + 1, "timeout"
def admit(f, line):
    """name of the lemma around the line; its proof becomes Admitted (None if the line is in no proof)"""
    p = f"{WORK}/theories/{f}.v"; L = open(p).read().split("\n")
    for s in range(line - 1, -1, -1):
        m = re.match(KIND, L[s])
        if m: break
    else: return None, False
    end = next((e for e in range(s, len(L)) if re.search(r"(Qed|Defined|Admitted)\.", L[e])), None)
    if end is None or end < line - 1: return m.group(2), False
    txt = "\n".join(L[s:end+1]); i = re.search(r"\bProof\b\.?", txt)
    if not i: return m.group(2), False
    if txt[:i.start()].count("\n") + s > line - 1: return m.group(2), False   # the statement fails
    L[s:end+1] = (txt[:i.start()] + "Admitted.").split("\n"); open(p, "w").write("\n".join(L))
    return m.group(2), True
def users(D, file):
    rev = collections.defaultdict(set)
    for a, bs in D.items():
        for b in bs: rev[b].add(a)
    dirty = {file}; todo = [file]
    while todo:
        for y in rev[todo.pop()]:
            if y not in dirty and y not in SKIP: dirty.add(y); todo.append(y)
    return dirty
def run(mut, D, G, wanted, tmo=int(os.environ.get("MT", "180")), rounds=12):
    name, file, old, new, claim = mut
    shutil.rmtree(WORK, ignore_errors=True); subprocess.run(["cp", "-a", BASE, WORK], check=True)
    p = f"{WORK}/theories/{file}.v"; s = open(p).read()
    n = s.count(old)
    if n != 1: return {"name": name, "error": f"{n} occurrences of the text"}
    at = s[:s.index(old)]; ds = re.findall(r"(?:Definition|Fixpoint|Record|Inductive|Notation) \"?'?([\w']+)", at + old.split(":=")[0]); d = ds[-1]
    open(p, "w").write(s.replace(old, new))
    dirty = users(D, file)
    done = set(); failed = []; stuck = {}; cnt = collections.Counter()
    with cf.ThreadPoolExecutor(4) as ex:
        running = {}
        def launch():
            for f in sorted(dirty):
                if f in done or f in stuck or f in running.values(): continue
                if any(x in dirty and x not in done for x in D[f]): continue
                running[ex.submit(compile, f, tmo)] = f
        launch()
        while running:
            fin, _ = cf.wait(running, return_when=cf.FIRST_COMPLETED)
            for r in fin:
                f = running.pop(r); _, line, err = r.result()
                if line is None: done.add(f); continue
                who, ok = admit(f, line) if line > 0 else (None, False)
                cnt[f] += 1; failed.append((f, who, "timeout" if err == "timeout" else ""))
                if not ok or cnt[f] >= rounds: stuck[f] = err[-200:]
            if len(failed) < STOP: launch()
    names = {w for _, w, _ in failed if w}
    direct = sorted(names & wanted)
    th = resting_on(G, names, wanted)
    blocked = sorted(f for f in dirty if f not in done and f not in stuck)
    return {"name": name, "definition": f"{file}.{d}", "edit": f"{' '.join(old.split())}  ==>  {' '.join(new.split())}", "claim": claim,
            "lemmas": [f"{f}.{w}" + (f" ({t})" if t else "") for f, w, t in failed], "direct": direct, "theorems": th,
            "stuck": stuck, "blocked": blocked}
def main():
    ns = {}; exec(open(sys.argv[1]).read(), ns); M = ns["M"]; out = sys.argv[2]; only = sys.argv[3:]
    wanted = {t for c in json.load(open("/verif/MANIFEST.json"))["claims"] for t in c["theorems"]}
    D = deps(); G = refs()
    shutil.rmtree(BASE, ignore_errors=True); subprocess.run(["cp", "-a", SRC, BASE], check=True)
    have = set()
    if os.path.exists(out) and not only: have = {json.loads(l)["name"] for l in open(out)}
    for m in sorted(M, key=lambda m: len(users(D, m[1]))):
        if (only and m[0] not in only) or m[0] in have: continue
        r = run(m, D, G, wanted)
        with open(out, "a") as o: o.write(json.dumps(r) + "\n")
        print(r["name"], "SURVIVED" if not r.get("lemmas") and not r.get("error") else r.get("error") or f"{len(r['lemmas'])} lemmas, {len(r['theorems'])} theorems", flush=True)
main()
